(* Property C110, continued: X0 predictions for mirrored muons. *)
From Coq Require Import Reals List Lia Lra ZArith.
From Verif Require Import Model.Volume Model.X0Infer Spec.VolumeSpec Spec.InferSpec Spec.MirrorSpec Proofs.VoxelProbP Proofs.InferStateP Proofs.OrderP Proofs.TurnP Proofs.MirrorP Properties.VolumeProps Properties.InferProps Properties.OrderProps Properties.EnlargeTrackProps.
From Verif Require Import Base.XR.
Open Scope R_scope.
Open Scope list_scope.

(* C110. If the places of all muons are mirrored in the middle of the volume, the X0 predictions are the same with the voxels counted from the other
   end, and exceptions are the same: no side of the volume is preferred.  For every symmetric distribution of the places and all scans. *)
Theorem C110_mirrored_x0 :
  forall w g cdf pred_unc bss, even_grid w g -> symmetric cdf -> bss <> [] ->
  (forall m, In m (concat bss) -> (2 <= List.length (k_above m))%nat /\ (2 <= List.length (k_below m))%nat) ->
  interact g cdf panel_efficiency pred_unc (scan (map (map (mirror_seen w)) bss)) new_inf
  = map (rmap (mirror_answer (g_nx g) (g_ny g) (g_nz g))) (interact g cdf panel_efficiency pred_unc (scan bss) new_inf).
Proof.
  intros w g cdf pu bss T Y N H. rewrite !scan_answer; auto.
  - cbn [map]. now rewrite <- concat_map, filter_mirror, (answer_mirror w g T cdf Y).
  - intro E. apply map_eq_nil in E. auto.
  - intros m I. rewrite <- concat_map in I. apply in_map_iff in I as (m0 & <- & I). exact (H m0 I).
Qed.
Print Assumptions C110_mirrored_x0.

(* C110. The voxels of a volume are such. *)
Theorem C110_mirrored_voxels :
  forall ls s m nx ny nz, stack ls s m nx ny nz ->
  exists g, grid_of ls = Ok g /\ even_grid (INR nx * s) g /\ g_nx g = nx /\ g_ny g = ny /\ g_nz g = nz.
Proof. exact grid_even. Qed.
Print Assumptions C110_mirrored_voxels.

(* the prediction for a voxel is found where that of the voxel on the other side was *)
Theorem C110_mirrored_place :
  forall nx ny nz l i j k, (i < nx)%nat -> (j < ny)%nat -> (k < nz)%nat -> List.length l = (nx * ny * nz)%nat ->
  nth_error (mirror_preds nx ny nz l) ((k * nx + i) * ny + j) = nth_error l ((k * nx + (nx - 1 - i)) * ny + j).
Proof.
  intros nx ny nz l i j k I J K L. assert (I' : (nx - 1 - i < nx)%nat) by lia. pose proof (arr_lt nx ny nz k (nx - 1 - i) j K I' J) as B. rewrite <- L in B. pose proof (arr_lt nx ny nz k i j K I J) as B'.
  change (mirror_preds nx ny nz l) with (arr nx ny nz (fun k i j => nth ((k * nx + (nx - 1 - i)) * ny + j) l NaN)).
  rewrite (nth_error_nth' _ NaN) by (rewrite arr_length; exact B'). rewrite arr_nth by assumption. symmetry. apply nth_error_nth', B.
Qed.
Print Assumptions C110_mirrored_place.

(* a volume of 3 by 1 voxels in 2 layers, a muon in it and a symmetric distribution *)
Example C110_mirror_case :
  stack two_layers 1 2 3 1 2 /\ (exists g, grid_of two_layers = Ok g /\ even_grid (INR 3 * 1) g) /\ symmetric flat_cdf
  /\ mirror_seen (INR 3 * 1) good_muon <> good_muon /\ mirror_preds 2 2 1 [Fin 1; Fin 2; Fin 3; Fin 4] = [Fin 3; Fin 4; Fin 1; Fin 2].
Proof.
  split; [apply two_layers_stack|]. split; [destruct (grid_even _ _ _ _ _ _ two_layers_stack) as (g & G & E & _); exists g; auto|]. split; [|split; [|reflexivity]].
  - intros c l s x. unfold flat_cdf. replace ((c - x - (c - l)) / s) with (- ((x - l) / s)) by (unfold Rdiv; ring). set (t := (x - l) / s).
    unfold Rmax, Rmin. repeat destruct (Rle_dec _ _); lra.
  - intro E. apply (f_equal k_poca) in E. cbn in E. injection E as E. lra.
Qed.
