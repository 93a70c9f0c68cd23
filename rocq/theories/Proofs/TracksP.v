(* The tracks of a muon, from its hits and their efficiencies; the mask of scatter locations and the voxels. *)
Require Import Reals Lra Lia.
From Verif Require Import Model.Volume Model.Scatter Spec.MuonSpec Spec.LayerSpec Spec.VolumeSpec Spec.ScatterSpec.
From Verif Require Import Proofs.VolumeP Proofs.TrackFit.
Open Scope R_scope.
Open Scope string_scope.
Open Scope list_scope.

Lemma widen_div u e : 0 < e -> xdiv u (Fin e) = widen u e.
Proof.
  intros He. unfold xdiv, widen. destruct u; try reflexivity.
  - destruct (Req_EM_T e 0); [lra|reflexivity].
  - destruct (Rlt_dec e 0); [lra|reflexivity].
  - destruct (Rlt_dec e 0); [lra|reflexivity].
Qed.
Lemma weigh_unc (l : list (hit_in * R)) : (forall h e, In (h, e) l -> 0 < e) ->
  map2 (fun u e => vmap (fun a => xdiv a e) u) (map (fun he => hit_unc (fst he)) l) (map (fun he => Fin (snd he)) l) = map hit_unc (map weigh l).
Proof.
  induction l as [|[h e] l IH]; intros H; [reflexivity|]. cbn [map map2 fst snd weigh]. f_equal.
  - unfold vmap, hit_unc. cbn [vx vy vz u_x u_y u_z]. rewrite !widen_div by (apply (H h e); left; reflexivity). reflexivity.
  - apply IH. intros h' e' I. apply (H h' e'). right. exact I.
Qed.
Lemma weigh_xyz (l : list (hit_in * R)) : map (fun he => hit_xyz (fst he)) l = map hit_xyz (map weigh l).
Proof. rewrite map_map. apply map_ext. intros [h e]. reflexivity. Qed.
Lemma fit_ok_widen x u e : 0 < e <= 1 -> fit_ok x u -> fit_ok x (widen u e).
Proof.
  intros [H1 H2] [Hx [->|(s & -> & Hs & Hd)]]; split; try exact Hx; [left; reflexivity|]. right. exists (s / e). split; [reflexivity|].
  assert (s <= s / e).
  { apply Rmult_le_reg_r with e; [lra|]. unfold Rdiv. rewrite Rmult_assoc, Rinv_l by lra. nra. }
  split; [lra|]. destruct Hd as [Hd|Hd]; [left; lra|right; exact Hd].
Qed.
Lemma firstn_app_len {A} (a b : list A) n : n = List.length a -> firstn n (a ++ b) = a.
Proof. intros ->. rewrite firstn_app, Nat.sub_diag, firstn_all, firstn_O, app_nil_r. reflexivity. Qed.
Lemma skipn_app_len {A} (a b : list A) n : n = List.length a -> skipn n (a ++ b) = b.
Proof. intros ->. rewrite skipn_app, Nat.sub_diag, skipn_all, skipn_O. reflexivity. Qed.

Lemma two_tracks lw a0 a1 ra b0 b1 rb :
  let A := a0 :: a1 :: ra in let B := b0 :: b1 :: rb in
  (forall h, In h (A ++ B) -> fit_ok (h_x h) (u_x h) /\ fit_ok (h_y h) (u_y h)) ->
  two_heights (used_x A) -> two_heights (used_y A) -> two_heights (used_x B) -> two_heights (used_y B) ->
  exists ax bx ay by' cx dx cy dy,
    (t_in <- trajectory lw (map hit_xyz A) (map hit_unc A) ;; t_out <- trajectory lw (map hit_xyz B) (map hit_unc B) ;; Ok (t_in, t_out))
    = Ok (track_on ax bx ay by' (h_z a0) (h_z a1), track_on cx dx cy dy (h_z b0) (h_z b1))
    /\ best_line ax bx (used_x A) /\ best_line ay by' (used_y A) /\ best_line cx dx (used_x B) /\ best_line cy dy (used_y B).
Proof.
  intros A B H X1 Y1 X2 Y2.
  destruct (fit_minimal lw a0 a1 ra) as (ax & bx & ay & by' & E1 & L1 & L2); auto.
  { intros h I. apply H. apply in_or_app. left. exact I. }
  destruct (fit_minimal lw b0 b1 rb) as (cx & dx & cy & dy & E2 & L3 & L4); auto.
  { intros h I. apply H. apply in_or_app. right. exact I. }
  exists ax, bx, ay, by', cx, dx, cy, dy. fold A in E1, L1, L2. fold B in E2, L3, L4. rewrite E1. cbn [bind]. rewrite E2. cbn [bind].
  split; [reflexivity|]. repeat (split; [assumption|]). assumption.
Qed.

Lemma reco_tracks lw a0 a1 ra b0 b1 rb gens :
  let A := a0 :: a1 :: ra in let B := b0 :: b1 :: rb in
  (forall h e, In (h, e) (A ++ B) -> 0 < e <= 1 /\ fit_ok (h_x h) (u_x h) /\ fit_ok (h_y h) (u_y h)) ->
  two_heights (used_x (map weigh A)) -> two_heights (used_y (map weigh A)) ->
  two_heights (used_x (map weigh B)) -> two_heights (used_y (map weigh B)) ->
  exists ax bx ay by' cx dx cy dy,
    tracks1 false lw (List.length A)
      (MH (map (fun he => hit_xyz (fst he)) (A ++ B)) gens (map (fun he => hit_unc (fst he)) (A ++ B)) (map (fun he => Fin (snd he)) (A ++ B)))
    = Ok (track_on ax bx ay by' (h_z (fst a0)) (h_z (fst a1)), track_on cx dx cy dy (h_z (fst b0)) (h_z (fst b1)))
    /\ best_line ax bx (used_x (map weigh A)) /\ best_line ay by' (used_y (map weigh A))
    /\ best_line cx dx (used_x (map weigh B)) /\ best_line cy dy (used_y (map weigh B)).
Proof.
  intros A B H X1 Y1 X2 Y2. unfold tracks1. cbn [mh_reco mh_unc mh_eff].
  rewrite weigh_unc by (intros h e I; apply (H h e I)). rewrite weigh_xyz.
  rewrite !(map_app weigh), !(map_app hit_xyz), !(map_app hit_unc).
  rewrite !firstn_app_len, !skipn_app_len by (rewrite !map_length; reflexivity).
  destruct (two_tracks lw (weigh a0) (weigh a1) (map weigh ra) (weigh b0) (weigh b1) (map weigh rb))
    as (ax & bx & ay & by' & cx & dx & cy & dy & E & L1 & L2 & L3 & L4); auto.
  { intros h I. change (weigh a0 :: weigh a1 :: map weigh ra) with (map weigh A) in I. change (weigh b0 :: weigh b1 :: map weigh rb) with (map weigh B) in I.
    rewrite <- map_app in I. apply in_map_iff in I. destruct I as ([h' e] & <- & I). destruct (H h' e I) as (He & F1 & F2). cbn [weigh h_x h_y u_x u_y].
    split; apply fit_ok_widen; auto. }
  exists ax, bx, ay, by', cx, dx, cy, dy. split; [|auto]. destruct a0, a1, b0, b1. exact E.
Qed.

Lemma gen_tracks lw a0 a1 ra b0 b1 rb reco uncs effs :
  let A := a0 :: a1 :: ra in let B := b0 :: b1 :: rb in
  (forall h, In h (A ++ B) -> hit_unc h = fv (1, 1, 1) /\ fit_ok (h_x h) (Fin 1) /\ fit_ok (h_y h) (Fin 1)) ->
  two_heights (used_x A) -> two_heights (used_y A) -> two_heights (used_x B) -> two_heights (used_y B) ->
  exists ax bx ay by' cx dx cy dy,
    tracks1 true lw (List.length A) (MH reco (map hit_xyz (A ++ B)) uncs effs)
    = Ok (track_on ax bx ay by' (h_z a0) (h_z a1), track_on cx dx cy dy (h_z b0) (h_z b1))
    /\ best_line ax bx (used_x A) /\ best_line ay by' (used_y A) /\ best_line cx dx (used_x B) /\ best_line cy dy (used_y B).
Proof.
  intros A B H X1 Y1 X2 Y2. unfold tracks1, used_uncs. cbn [mh_gen].
  replace (map (fun _ => V3 (Fin 1) (Fin 1) (Fin 1)) (map hit_xyz (A ++ B))) with (map hit_unc (A ++ B)).
  2: { rewrite map_map. apply map_ext_in. intros h I. apply (H h I). }
  rewrite !map_app. rewrite !firstn_app_len, !skipn_app_len by (rewrite !map_length; reflexivity).
  apply two_tracks; auto. intros h I. destruct (H h I) as (E & F1 & F2). unfold hit_unc in E. injection E as -> -> _. auto.
Qed.

Lemma Rfloor_range x s n : 0 < s -> 0 <= x < INR n * s -> exists i, (0 <= i < Z.of_nat n)%Z /\ IZR i * s <= x < (IZR i + 1) * s.
Proof.
  intros Hs [H1 H2]. exists (Rfloor (x / s)). destruct (Rfloor_bounds (x / s)) as [F1 F2].
  assert (Ex : x / s * s = x) by (field; lra). split.
  - rewrite INR_IZR_INZ in H2. split.
    + assert (-1 < IZR (Rfloor (x / s))). { assert (0 <= x / s) by (apply Rmult_le_reg_r with s; [lra|]; rewrite Ex; lra). lra. }
      apply (lt_IZR (-1)) in H. lia.
    + apply lt_IZR. assert (x / s < IZR (Z.of_nat n)) by (apply Rmult_lt_reg_r with s; [lra|]; rewrite Ex; lra). lra.
  - rewrite <- Ex at 2 3. split; [apply Rmult_le_compat_r|apply Rmult_lt_compat_r]; lra.
Qed.
Lemma range_of_voxel x s n i : 0 < s -> (0 <= i < Z.of_nat n)%Z -> IZR i * s <= x < (IZR i + 1) * s -> 0 <= x < INR n * s.
Proof.
  intros Hs [H1 H2] [H3 H4]. apply IZR_le in H1. assert (H5 : (i + 1 <= Z.of_nat n)%Z) by lia. apply IZR_le in H5. rewrite plus_IZR in H5.
  rewrite INR_IZR_INZ. nra.
Qed.

Lemma mask_voxels ls s m nx ny nz : stack ls s m nx ny nz ->
  exists L zr, last_passive ls = Ok L /\ passive_z_range ls = Ok zr
  /\ forall q, in_passive1 (pl_lx L, pl_ly L) zr q = true
       <-> exists p i j k, q = fv p /\ (0 <= i < Z.of_nat nx)%Z /\ (0 <= j < Z.of_nat ny)%Z /\ (0 <= k < Z.of_nat nz)%Z /\ in_voxel s m (i, j, k) p.
Proof.
  intros St. pose proof St as (Hs & _). destruct (stack_ends _ _ _ _ _ _ St) as (L & E1 & E2 & E3 & E4 & E5).
  exists L, (IZR m * s, IZR (m + Z.of_nat nz) * s). split; [exact E1|]. split; [exact E5|]. intros q. rewrite E3, E4.
  unfold in_passive1. cbn [fst snd]. split.
  - intros H. repeat (apply andb_prop in H; destruct H as [H ?H]). destruct q as [[x| | |] [y| | |] [z| | |]]; cbn [vx vy vz xlt xle] in *; try discriminate.
    apply Rleb_true in H, H1, H3. apply Rltb_true in H0, H2, H4.
    destruct (Rfloor_range x s nx) as (i & Ii & Bi); [lra|lra|]. destruct (Rfloor_range y s ny) as (j & Ij & Bj); [lra|lra|].
    destruct (Rfloor_range (z - IZR m * s) s nz) as (k & Ik & Bk); [lra| |].
    { rewrite plus_IZR in H0. rewrite INR_IZR_INZ. lra. }
    exists (x, y, z), i, j, k. split; [reflexivity|]. split; [exact Ii|]. split; [exact Ij|]. split; [exact Ik|].
    split; [exact Bi|]. split; [exact Bj|]. rewrite plus_IZR. lra.
  - intros ([[x y] z] & i & j & k & -> & Ii & Ij & Ik & Bi & Bj & Bk).
    pose proof (range_of_voxel x s nx i Hs Ii Bi). pose proof (range_of_voxel y s ny j Hs Ij Bj).
    pose proof (range_of_voxel (z - IZR m * s) s nz k Hs Ik ltac:(rewrite plus_IZR in Bk; lra)).
    rewrite plus_IZR. rewrite INR_IZR_INZ in H1. cbn [fv vx vy vz xlt xle].
    rewrite !(proj2 (Rleb_true _ _)), !(proj2 (Rltb_true _ _)) by lra. reflexivity.
Qed.
