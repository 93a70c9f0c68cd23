(* Property C113: only differences of heights matter, except for the voxels. *)
From Coq Require Import Reals List String Lra Lia ZArith.
From Verif Require Import Model.Volume Model.X0Infer Model.DataCb Spec.VolumeSpec Spec.InferSpec Spec.LiftSpec Proofs.VolumeP Proofs.VolumeRun Proofs.InferStateP Proofs.CombineP Proofs.OrderP
  Proofs.LiftP Proofs.LiftInferP Properties.VolumeProps Properties.InferProps Properties.OrderProps.
From Verif Require Import Base.XR.
Open Scope R_scope.
Open Scope string_scope.
Open Scope list_scope.

(* C113. Let the volume, the muons in a batch and everything recorded about them be moved up by h.  With the same random numbers the muons then
   go the same way, h higher: they get the same hits, the same are removed, with the same angles and momenta, and the budget is spent in the same way.
   If there is an exception, it is the same; and the loops stop when they stopped before.  Neither the volume nor the batch need make sense. *)
Theorem C113_volume :
  forall h argsort tr o V b, by_comparison argsort ->
  volume_forward argsort tr o (up_volume h V) (up_batch h b) =
  option_map (rmap (fun vb => (up_volume h (fst vb), up_batch h (snd vb)))) (volume_forward argsort tr o V b).
Proof. intros. now apply forward_b. Qed.
Print Assumptions C113_volume.

(* C113. The top of the volume moves, and so does a batch that starts there. *)
Theorem C113_start :
  forall h ls H rows b, vol_h ls = Ok H -> new_batch (H := hrow) rows (Sc (Fin H)) = Ok b ->
  vol_h (map (up_layer h) ls) = Ok (H + h) /\ new_batch (H := hrow) rows (Sc (Fin (H + h))) = Ok (up_batch h b).
Proof.
  intros h ls H rows b EH Eb. split.
  - unfold vol_h in *. destruct ls as [|l ls]; [discriminate|]. cbn [map]. injection EH as <-. destruct l; reflexivity.
  - injection Eb as <-. cbn. unfold up_batch. cbn. do 2 f_equal. rewrite map_map. apply map_ext. intros [[[[x y] p] th] ph]. reflexivity.
Qed.
Print Assumptions C113_start.

(* C113. Predictions of radiation lengths do not change when the muons were seen h higher and the voxels are h higher. *)
Theorem C113_prediction :
  forall h g cdf pred_unc bss, moves_along cdf -> bss <> [] -> two_panels bss ->
  interact (up_grid h g) cdf panel_efficiency pred_unc (scan (map (map (up_seen h)) bss)) new_inf = interact g cdf panel_efficiency pred_unc (scan bss) new_inf.
Proof.
  intros h g cdf pu bss M N T. rewrite !scan_answer; auto.
  - now rewrite <- concat_map, seen_filter, answer_up.
  - intro E. apply map_eq_nil in E. auto.
  - intros k I. rewrite <- concat_map in I. apply in_map_iff in I as (k0 & <- & I). exact (T k0 I).
Qed.
Print Assumptions C113_prediction.

(* C113. The voxels of a volume on the grid are moved along by a whole number of voxels. *)
Theorem C113_voxels :
  forall n ls s m nx ny nz, stack ls s m nx ny nz -> grid_of (map (up_layer (IZR n * s)) ls) = rmap (up_grid (IZR n * s)) (grid_of ls).
Proof. intros. eapply grid_up; eauto. Qed.
Print Assumptions C113_voxels.

(* C113. By less than half a voxel they are not moved at all: the voxels stay where they were while the layers move. *)
Theorem C113_voxels_stay :
  forall h ls s m nx ny nz, stack ls s m nx ny nz -> Rabs h < s / 2 -> grid_of (map (up_layer h) ls) = grid_of ls.
Proof. intros. eapply grid_stuck; eauto. Qed.
Print Assumptions C113_voxels_stay.
Theorem C113_voxels_refuted :
  exists h ls s m nx ny nz, stack ls s m nx ny nz /\ grid_of (map (up_layer h) ls) <> rmap (up_grid h) (grid_of ls).
Proof.
  exists (1/4), two_layers, 1, 2%Z, 3%nat, 1%nat, 2%nat. split; [apply two_layers_stack|].
  rewrite (C113_voxels_stay _ _ _ _ _ _ _ two_layers_stack) by (rewrite Rabs_pos_eq; lra).
  destruct (VoxelProbP.grid_stack _ _ _ _ _ _ two_layers_stack) as (es & -> & L & E). cbn [rmap]. unfold up_grid. cbn. intros [= H].
  specialize (E 0 0 0)%nat. assert (Q : nth_error es 0 = nth_error (map (up_corner (1/4)) es) 0) by congruence. rewrite nth_error_map in Q.
  cbn [Nat.mul Nat.add] in E. rewrite E in Q by lia. cbn in Q. injection Q as Q. lra.
Qed.
Print Assumptions C113_voxels_refuted.

Example C113_case :
  by_comparison argsort_ins /\ is_argsort argsort_ins /\ v_layers small_volume <> [] /\ moves_along step_cdf
  /\ (let bss := [[seen_muon 1 0 0 2]] in two_panels bss /\ bss <> []) /\ stack two_layers 1 2 3 1 2
  /\ up_muon 2 (Mu (Fin 1) (Fin 1) (Fin 3) (Fin 5) (Fin 0) (Fin 0)) = Mu (Fin 1) (Fin 1) (Fin (3 + 2)) (Fin 5) (Fin 0) (Fin 0).
Proof.
  split; [exact ins_compares|]. split; [exact argsort_exists|]. split; [discriminate|]. split; [|split; [split|split; [exact two_layers_stack|reflexivity]]].
  - intros l s x h. unfold step_cdf. destruct (Rlt_dec (x + h) (l + h)), (Rlt_dec x l); try reflexivity; lra.
  - intros q [<-|[]]. cbn. lia.
  - discriminate.
Qed.
