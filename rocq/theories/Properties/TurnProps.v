(* Property C110, continued: X0 predictions with x and y exchanged. *)
From Coq Require Import Reals List Lia Lra ZArith.
From Verif Require Import Model.Volume Model.X0Infer Spec.VolumeSpec Spec.InferSpec Spec.TurnSpec Proofs.VoxelProbP Proofs.InferStateP Proofs.OrderP Proofs.TurnP Properties.VolumeProps Properties.InferProps Properties.OrderProps.
From Verif Require Import Base.XR.
Open Scope R_scope.
Open Scope list_scope.

(* C110. If x and y are exchanged in the volume and in the places of all muons, the X0 predictions of the voxels are the same with x and y
   exchanged, and exceptions are the same; for every distribution of the places and all scans. *)
Theorem C110_exchanged_x0 :
  forall g g' cdf pred_unc bss, turned g g' -> bss <> [] ->
  (forall m, In m (concat bss) -> (2 <= List.length (k_above m))%nat /\ (2 <= List.length (k_below m))%nat) ->
  interact g' cdf panel_efficiency pred_unc (scan (map (map turn_seen) bss)) new_inf
  = map (rmap (turn_answer (g_nx g) (g_ny g) (g_nz g))) (interact g cdf panel_efficiency pred_unc (scan bss) new_inf).
Proof.
  intros g g' cdf pu bss T N H. rewrite !scan_answer; auto.
  - cbn [map]. now rewrite <- concat_map, filter_turn, (answer_turn g g' T).
  - intro E. apply map_eq_nil in E. auto.
  - intros m I. rewrite <- concat_map in I. apply in_map_iff in I as (m0 & <- & I). exact (H m0 I).
Qed.
Print Assumptions C110_exchanged_x0.

(* C110. The voxels of a volume with length and width exchanged are such. *)
Theorem C110_exchanged_voxels :
  forall ls s m nx ny nz, stack ls s m nx ny nz ->
  exists g g', grid_of ls = Ok g /\ grid_of (map turn_layer ls) = Ok g' /\ turned g g' /\ g_nx g = nx /\ g_ny g = ny /\ g_nz g = nz.
Proof. exact grid_turn. Qed.
Print Assumptions C110_exchanged_voxels.

(* the prediction for voxel (i, j, k) is found where that of voxel (j, i, k) was *)
Theorem C110_exchanged_place :
  forall nx ny nz l i j k, (i < nx)%nat -> (j < ny)%nat -> (k < nz)%nat -> List.length l = (nx * ny * nz)%nat ->
  nth_error (turn_preds nx ny nz l) ((k * ny + j) * nx + i) = nth_error l ((k * nx + i) * ny + j).
Proof.
  intros nx ny nz l i j k I J K L. pose proof (arr_lt nx ny nz k i j K I J) as B. rewrite <- L in B. pose proof (arr_lt ny nx nz k j i K J I) as B'.
  change (turn_preds nx ny nz l) with (arr ny nx nz (fun k j i => nth ((k * nx + i) * ny + j) l NaN)).
  rewrite (nth_error_nth' _ NaN) by (rewrite arr_length; exact B'). rewrite arr_nth by assumption. symmetry. apply nth_error_nth', B.
Qed.
Print Assumptions C110_exchanged_place.

(* a volume of 3 by 1 voxels in 2 layers with a muon in it *)
Example C110_turn_case :
  stack two_layers 1 2 3 1 2 /\ (exists g g', grid_of two_layers = Ok g /\ turned g g')
  /\ (2 <= List.length (k_above good_muon))%nat /\ (2 <= List.length (k_below good_muon))%nat
  /\ turn_seen good_muon <> good_muon /\ turn_preds 2 2 1 [Fin 1; Fin 2; Fin 3; Fin 4] = [Fin 1; Fin 3; Fin 2; Fin 4].
Proof.
  split; [apply two_layers_stack|]. split; [destruct (grid_turn _ _ _ _ _ _ two_layers_stack) as (g & g' & G & _ & T & _); exists g, g'; auto|]. split; [cbn; lia|]. split; [cbn; lia|]. split; [|reflexivity].
  intro E. apply (f_equal k_poca) in E. cbn in E. injection E as E1 E2. lra.
Qed.
