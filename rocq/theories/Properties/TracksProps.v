(* Properties C26 (efficiencies), C40 (averaging over neighbours) and C86: hits to tracks, scatter locations to voxels. *)
Require Import Reals Lra Lia.
From Verif Require Import Model.X0Infer Spec.PoolSpec Proofs.PoolP.
From Verif Require Import Model.Volume Model.Scatter Spec.MuonSpec Spec.LayerSpec Spec.VolumeSpec Spec.ScatterSpec.
From Verif Require Import Proofs.TracksP Properties.VolumeProps Properties.ScatterProps.
Open Scope R_scope.
Open Scope string_scope.
Open Scope list_scope.

(* C26. The tracks of a muon: the incoming one is the best line through the hits above, the outgoing one the best line
   through those below.  Every hit counts with its uncertainty divided by its efficiency.  True positions play no role. *)
Theorem C26_tracks :
  forall lw a0 a1 ra b0 b1 rb gens,
  let A := a0 :: a1 :: ra in let B := b0 :: b1 :: rb in
  (forall h e, In (h, e) (A ++ B) -> 0 < e <= 1 /\ fit_ok (h_x h) (u_x h) /\ fit_ok (h_y h) (u_y h)) ->
  two_heights (used_x (map weigh A)) -> two_heights (used_y (map weigh A)) ->
  two_heights (used_x (map weigh B)) -> two_heights (used_y (map weigh B)) ->
  exists ax bx ay by' cx dx cy dy,
    tracks1 false lw (List.length A)
      (MH (map (fun he => hit_xyz (fst he)) (A ++ B)) gens (map (fun he => hit_unc (fst he)) (A ++ B)) (map (fun he => Fin (snd he)) (A ++ B)))
    = Ok (track_on ax bx ay by' (h_z (fst a0)) (h_z (fst a1)), track_on cx dx cy dy (h_z (fst b0)) (h_z (fst b1)))
    /\ best_line ax bx (used_x (map weigh A)) /\ best_line ay by' (used_y (map weigh A))
    /\ best_line cx dx (used_x (map weigh B)) /\ best_line cy dy (used_y (map weigh B)).
Proof. exact reco_tracks. Qed.
Print Assumptions C26_tracks.

(* C26. A batch of true hits: the best lines through the true positions, all with the same weight.  Recorded positions,
   uncertainties and efficiencies play no role. *)
Theorem C26_gen_tracks :
  forall lw a0 a1 ra b0 b1 rb reco uncs effs,
  let A := a0 :: a1 :: ra in let B := b0 :: b1 :: rb in
  (forall h, In h (A ++ B) -> hit_unc h = fv (1, 1, 1) /\ fit_ok (h_x h) (Fin 1) /\ fit_ok (h_y h) (Fin 1)) ->
  two_heights (used_x A) -> two_heights (used_y A) -> two_heights (used_x B) -> two_heights (used_y B) ->
  exists ax bx ay by' cx dx cy dy,
    tracks1 true lw (List.length A) (MH reco (map hit_xyz (A ++ B)) uncs effs)
    = Ok (track_on ax bx ay by' (h_z a0) (h_z a1), track_on cx dx cy dy (h_z b0) (h_z b1))
    /\ best_line ax bx (used_x A) /\ best_line ay by' (used_y A) /\ best_line cx dx (used_x B) /\ best_line cy dy (used_y B).
Proof. exact gen_tracks. Qed.
Print Assumptions C26_gen_tracks.

(* hits above: three panels, of which the last is inefficient; below: two *)
Definition seen_hit (x y z u e : R) : hit_in * R := (Hit (Fin x) (Fin y) z (Fin u) (Fin u) (Fin 0), e).
Definition hits_above : list (hit_in * R) := [seen_hit 0 0 3 (1/10) 1; seen_hit 1 0 2 (1/10) 1; seen_hit 1 1 1 (1/10) (1/2)].
Definition hits_below : list (hit_in * R) := [seen_hit 0 0 (-1) 1 1; seen_hit 1 2 (-2) 1 (1/4)].
Lemma seen_fit x u : 0 < u -> fit_ok (Fin x) (Fin u).
Proof. intros H. split; [discriminate|]. right. exists u. split; [reflexivity|]. split; [exact H|]. right. exists x. reflexivity. Qed.
Example C26_case :
  (forall h e, In (h, e) (hits_above ++ hits_below) -> 0 < e <= 1 /\ fit_ok (h_x h) (u_x h) /\ fit_ok (h_y h) (u_y h))
  /\ two_heights (used_x (map weigh hits_above)) /\ two_heights (used_y (map weigh hits_above))
  /\ two_heights (used_x (map weigh hits_below)) /\ two_heights (used_y (map weigh hits_below)).
Proof.
  split.
  { intros h e I. unfold hits_above, hits_below, seen_hit in I. cbn [In app] in I.
    repeat (destruct I as [E|I]; [injection E as <- <-; cbn [h_x h_y u_x u_y]; repeat (split; [lra || (apply seen_fit; lra)|]); apply seen_fit; lra|]). destruct I. }
  assert (big : 16 < 2 ^ 75). { pose proof (Rlt_pow 2 4 75 ltac:(lra) ltac:(lia)). simpl in H. lra. }
  assert (U : forall x z s, s <= 16 -> used1 (Fin x) z (Fin s) = [(x, z, s)]) by (intros x z s L; unfold used1; destruct (Rlt_dec s (2 ^ 75)); [reflexivity|lra]).
  unfold hits_above, hits_below, seen_hit, used_x, used_y. cbn [map weigh flat_map h_x h_y h_z u_x u_y widen]. rewrite !U by lra. cbn [app].
  split; [exists (0, 3, 1 / 10 / 1), (1, 2, 1 / 10 / 1); cbn [In fst snd]; split; [auto|]; split; [auto|lra]|].
  split; [exists (0, 3, 1 / 10 / 1), (0, 2, 1 / 10 / 1); cbn [In fst snd]; split; [auto|]; split; [auto|lra]|].
  split; [exists (0, -1, 1 / 1), (1, -2, 1 / (1 / 4)); cbn [In fst snd]; split; [auto|]; split; [auto|lra]|].
  exists (0, -1, 1 / 1), (2, -2, 1 / (1 / 4)); cbn [In fst snd]; split; [auto|]; split; [auto|lra].
Qed.

(* C40. After averaging, every voxel holds the mean over the voxels of the grid that touch it, itself included. *)
Theorem C40_pool_exact :
  forall nz nx ny l c, In c (cells nz nx ny) ->
  at_cell nx ny (avg_pool nz nx ny l) c = average (map (at_cell nx ny l) (filter (touching c) (cells nz nx ny))).
Proof. exact pool_exact. Qed.
Print Assumptions C40_pool_exact.
Example C40_pool_case :
  In (1, 0, 0)%nat (cells 4 1 1) /\ filter (touching (1, 0, 0)%nat) (cells 4 1 1) = [(0, 0, 0); (1, 0, 0); (2, 0, 0)]%nat.
Proof. split; [right; left; reflexivity|reflexivity]. Qed.

(* C86. A scatter location passes the mask exactly if it is a point of some voxel of the passive volume. *)
Theorem C86_mask :
  forall ls s m nx ny nz, stack ls s m nx ny nz ->
  exists L zr, last_passive ls = Ok L /\ passive_z_range ls = Ok zr
  /\ forall q, in_passive1 (pl_lx L, pl_ly L) zr q = true
       <-> exists p i j k, q = fv p /\ (0 <= i < Z.of_nat nx)%Z /\ (0 <= j < Z.of_nat ny)%Z /\ (0 <= k < Z.of_nat nz)%Z /\ in_voxel s m (i, j, k) p.
Proof. exact mask_voxels. Qed.
Print Assumptions C86_mask.
(* C86. The lookup accepts such locations and finds that voxel. *)
Theorem C86_lookup :
  forall ls s m nx ny nz L zr p, stack ls s m nx ny nz -> last_passive ls = Ok L -> passive_z_range ls = Ok zr ->
  in_passive1 (pl_lx L, pl_ly L) zr (fv p) = true ->
  exists i j k p', lookup_coords ls [p] = Ok ([(i, j, k)], [p']) /\ in_voxel s m (i, j, k) p
  /\ (0 <= i < Z.of_nat nx)%Z /\ (0 <= j < Z.of_nat ny)%Z /\ (0 <= k < Z.of_nat nz)%Z.
Proof.
  intros ls s m nx ny nz L zr p St EL Ez H. destruct (mask_voxels _ _ _ _ _ _ St) as (L' & zr' & EL' & Ez' & M).
  rewrite EL in EL'. injection EL' as <-. rewrite Ez in Ez'. injection Ez' as <-.
  apply M in H. destruct H as (p0 & i & j & k & E & Ii & Ij & Ik & V).
  assert (p0 = p) as -> by (destruct p0 as [[? ?] ?], p as [[? ?] ?]; injection E as -> -> ->; reflexivity).
  pose proof St as (Hs & _).
  destruct (C23_in_range ls s m nx ny nz [p] St) as (idx & pts' & El & F1 & F2).
  { constructor; [|constructor]. destruct p as [[x y] z]. destruct V as (V1 & V2 & V3).
    split; [exact (range_of_voxel x s nx i Hs Ii V1)|]. split; [exact (range_of_voxel y s ny j Hs Ij V2)|].
    pose proof (range_of_voxel (z - IZR m * s) s nz k Hs Ik ltac:(rewrite plus_IZR in V3; lra)) as B. rewrite INR_IZR_INZ in B. rewrite plus_IZR. lra. }
  inversion F1 as [|[[i' j'] k'] p1 idx' l' V' F1' Ei Ep]; subst. inversion F1'; subst. inversion F2 as [|? ? R _]; subst.
  pose proof El as El2. unfold lookup_coords in El2. rewrite EL, Ez in El2. cbn [bind] in El2.
  destruct (existsb _ [p]); [discriminate|]. injection El2 as _ Ep'.
  exists i', j', k'. eexists. split; [rewrite El, <- Ep'; reflexivity|]. split; [exact V'|]. exact R.
Qed.
Print Assumptions C86_lookup.
Example C86_case : stack two_layers 1 2 3 1 2 /\ in_voxel 1 2 (2, 0, 1)%Z (5/2, 1/2, 7/2).
Proof. split; [apply two_layers_stack|]. cbn. lra. Qed.
