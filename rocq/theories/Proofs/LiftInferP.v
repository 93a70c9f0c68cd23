From Coq Require Import Reals List String Lra Lia ZArith.
From Verif Require Import Model.Volume Model.X0Infer Spec.VolumeSpec Spec.InferSpec Spec.LiftSpec Proofs.VolumeP Proofs.VolumeRun Proofs.VoxelProbP Proofs.BlockP Proofs.InferStateP Proofs.CombineP Proofs.InferAllP Proofs.OrderP Proofs.UnseenP Proofs.LiftP.
From Verif Require Import Base.XR.
Open Scope R_scope.
Open Scope list_scope.

(* ---------- insertion sort only compares ---------- *)
Lemma ins_idx_range l n i o : Forall (fun j => (j < n)%nat) o -> (i < n)%nat -> Forall (fun j => (j < n)%nat) (ins_idx l i o).
Proof. intros F I. induction F as [|j o J F IH]; cbn; [repeat constructor; auto|]. destruct (Rle_dec _ _); repeat constructor; auto. Qed.
Lemma ins_compares : by_comparison argsort_ins.
Proof.
  intros l l' E H. unfold argsort_ins. rewrite <- E.
  assert (Q : forall s, Forall (fun j => (j < List.length l)%nat) s -> fold_right (ins_idx l) [] s = fold_right (ins_idx l') [] s /\ Forall (fun j => (j < List.length l)%nat) (fold_right (ins_idx l) [] s)).
  { induction 1 as [|i s I F [IH IF]]; [split; [reflexivity|constructor]|]. cbn. split; [|now apply ins_idx_range]. rewrite <- IH. clear IH F.
    induction IF as [|j o J F IH]; [reflexivity|]. cbn. rewrite IH. specialize (H i j I J). destruct (Rle_dec (nth i l 0) (nth j l 0)), (Rle_dec (nth i l' 0) (nth j l' 0)); tauto. }
  apply Q. apply Forall_forall. intros j J. apply in_seq in J. lia.
Qed.

(* ---------- predictions ---------- *)
Section P.
Variable h : R.
Lemma seen_numbers k : all_numbers (up_seen h k) = all_numbers k.
Proof. unfold all_numbers, k_vars, k_uncs, t3, up_seen. cbn. destruct (k_poca k) as [[x y] z]. cbn. destruct z; reflexivity. Qed.
Lemma seen_filter l : filter all_numbers (map (up_seen h) l) = map (up_seen h) (filter all_numbers l).
Proof. induction l as [|k l IH]; [reflexivity|]. cbn [map filter]. rewrite seen_numbers, IH. destruct (all_numbers k); reflexivity. Qed.
Lemma probs_up cdf g k : moves_along cdf -> muon_probs cdf (up_grid h g) (k_vars (up_seen h k)) (k_uncs (up_seen h k)) = muon_probs cdf g (k_vars k) (k_uncs k).
Proof.
  intro M. unfold muon_probs. change (k_uncs (up_seen h k)) with (k_uncs k). unfold k_vars, t3, up_seen. cbn [k_poca k_tot k_in k_out k_mom up_grid g_nx g_ny g_nz g_size g_edges].
  destruct (k_poca k) as [[x y] z]. cbn [up_place app three]. destruct x, y; try reflexivity; destruct z; try reflexivity. cbn [up_z xadd three].
  destruct (three (k_uncs k)) as [u|]; [|reflexivity]. destruct (scales_ok u); [|reflexivity]. do 3 f_equal. rewrite map_map. apply map_ext. intros [[a b] c]. cbn [up_corner].
  unfold voxel_prob. destruct u as [[ux uy] uz]. f_equal. replace (c + h + g_size g) with (c + g_size g + h) by ring. now rewrite !M.
Qed.
Lemma answer_up cdf g kept : moves_along cdf -> answer (up_grid h g) cdf (map (up_seen h) kept) = answer g cdf kept.
Proof.
  intro M. unfold answer, pprobs, ppreds. rewrite !map_length, !Nat.eqb_refl.
  assert (Q : mapM (fun vu => muon_probs cdf (up_grid h g) (fst vu) (snd vu)) (combine (map k_vars (map (up_seen h) kept)) (map k_uncs (map (up_seen h) kept)))
    = mapM (fun vu => muon_probs cdf g (fst vu) (snd vu)) (combine (map k_vars kept) (map k_uncs kept))).
  { induction kept as [|k kept IH]; [reflexivity|]. cbn [map combine mapM fst snd]. now rewrite IH, probs_up. }
  rewrite Q. clear Q. destruct (mapM (fun vu => muon_probs cdf g (fst vu) (snd vu)) (combine (map k_vars kept) (map k_uncs kept))) as [r|e]; [|reflexivity]. cbn [bind].
  assert (S : forall n m, shape_ok (up_grid h g) n m = shape_ok g n m) by (intros; unfold shape_ok; cbn; now rewrite map_length).
  rewrite S. destruct (shape_ok _ _ _); [|reflexivity]. cbn [bind].
  assert (V : voxel_preds (up_grid h g) (map k_vars (map (up_seen h) kept)) (map k_uncs (map (up_seen h) kept)) (map effic (map (up_seen h) kept)) r
    = voxel_preds g (map k_vars kept) (map k_uncs kept) (map effic kept) r).
  2: { now rewrite V. }
  unfold voxel_preds. cbn [up_grid g_nx g_ny g_nz g_size].
  assert (C : forall i, (3 <= i)%nat -> X0Infer.col i (map k_vars (map (up_seen h) kept)) = X0Infer.col i (map k_vars kept)).
  { intros i I. unfold X0Infer.col. rewrite !map_map. apply map_ext. intro k. unfold k_vars, t3, up_seen. cbn [k_poca k_tot k_in k_out k_mom].
    destruct (k_poca k) as [[x y] z]. destruct i as [|[|[|i]]]; [lia|lia|lia|reflexivity]. }
  rewrite (map_map (up_seen h) k_uncs). change (map (fun x => k_uncs (up_seen h x)) kept) with (map k_uncs kept).
  rewrite (map_map (up_seen h) effic). change (map (fun x => effic (up_seen h x)) kept) with (map effic kept).
  match goal with |- (if existsb xisnan (map ?f ?l) then _ else _) = (if existsb xisnan (map ?f' _) then _ else _) => assert (F : map f l = map f' l) end.
  { apply map_ext. intro j. unfold voxel_x0. now rewrite !C by lia. }
  now rewrite F.
Qed.
End P.

(* ---------- voxel edges ---------- *)
Lemma passives_up h ls : passives (map (up_layer h) ls) = map (up_passive h) (passives ls).
Proof. unfold passives. induction ls as [|[L|D] ls IH]; cbn; [reflexivity|now rewrite IH|exact IH]. Qed.
Lemma stack_up n ls s m nx ny nz : stack ls s m nx ny nz -> stack (map (up_layer (IZR n * s)) ls) s (m + n) nx ny nz.
Proof.
  intros (Hs & Hn & Hp & Hk). split; [exact Hs|]. rewrite passives_up. split; [now rewrite map_length|]. split; [exact Hp|].
  intros k L E. rewrite <- map_rev, nth_error_map in E. destruct (nth_error _ k) as [L0|] eqn:E0; [|discriminate]. injection E as <-.
  destruct (Hk k L0 E0) as (H1 & H2 & H3 & H4). cbn. repeat split; auto.
  replace (m + n + Z.of_nat k)%Z with (m + Z.of_nat k + n)%Z by ring. rewrite plus_IZR. nra.
Qed.
Lemma zrange_up a b n : zrange (a + n) (b + n) = map (fun k => (k + n)%Z) (zrange a b).
Proof. unfold zrange. replace (b + n - (a + n))%Z with (b - a)%Z by ring. rewrite map_map. apply map_ext. intro. ring. Qed.
Lemma map_flat {A B C} (f : B -> C) (g : A -> list B) l : map f (flat_map g l) = flat_map (fun a => map f (g a)) l.
Proof. induction l as [|a l IH]; [reflexivity|]. cbn. now rewrite map_app, IH. Qed.
Lemma flat_ext {A B} (f g : A -> list B) l : (forall a, f a = g a) -> flat_map f l = flat_map g l.
Proof. intro H. induction l as [|a l IH]; [reflexivity|]. cbn. now rewrite H, IH. Qed.
(* the grid when both ends round to whole voxels *)
Lemma grid_ends ls L s zr a b : last_passive ls = Ok L -> pl_size L = s -> passive_z_range ls = Ok zr -> round_half_even (fst zr / s) = a -> round_half_even (snd zr / s) = b ->
  grid_of ls = Ok (Grid (Z.to_nat (round_half_even (pl_lx L / s))) (Z.to_nat (round_half_even (pl_ly L / s))) (List.length (passives ls)) s
    (flat_map (fun i => flat_map (fun j => map (fun k => (s * IZR i, s * IZR j, s * IZR k)) (zrange a b)) (zrange 0 (round_half_even (pl_ly L / s)))) (zrange 0 (round_half_even (pl_lx L / s))))).
Proof. intros El <- Ez <- <-. unfold grid_of, build_xyz_edges. rewrite El. cbn [bind]. rewrite Ez. reflexivity. Qed.
Lemma last_up h ls L : last_passive ls = Ok L -> last_passive (map (up_layer h) ls) = Ok (up_passive h L).
Proof.
  unfold last_passive. rewrite passives_up, <- map_rev. destruct (rev (passives ls)); [discriminate|]. intros [= ->]. reflexivity.
Qed.
Lemma range_up h ls zr : passive_z_range ls = Ok zr -> passive_z_range (map (up_layer h) ls) = Ok (fst zr + h, snd zr + h).
Proof.
  unfold passive_z_range. destruct (last_passive ls) as [L|e] eqn:E; [|discriminate]. rewrite (last_up h ls L E). cbn [bind]. rewrite passives_up.
  destruct (passives ls); [discriminate|]. intros [= <-]. cbn. do 2 f_equal. ring.
Qed.
Lemma grid_up n ls s m nx ny nz : stack ls s m nx ny nz -> grid_of (map (up_layer (IZR n * s)) ls) = rmap (up_grid (IZR n * s)) (grid_of ls).
Proof.
  intro St. destruct (stack_ends _ _ _ _ _ _ St) as (L & El & Es & Ex & Ey & Ez). assert (Hs : 0 < s) by apply St.
  assert (Q : forall r, r * s / s = r) by (intro; field; lra).
  rewrite (grid_ends ls L s _ m (m + Z.of_nat nz)%Z El Es Ez) by (cbn; rewrite Q; apply round_half_even_int).
  rewrite (grid_ends _ (up_passive (IZR n * s) L) s _ (m + n)%Z (m + Z.of_nat nz + n)%Z (last_up _ _ _ El) Es (range_up _ _ _ Ez));
    [|cbn [fst snd]; rewrite <- Rmult_plus_distr_r, Q, <- plus_IZR; apply round_half_even_int|cbn [fst snd]; rewrite <- Rmult_plus_distr_r, Q, <- plus_IZR; apply round_half_even_int].
  cbn [rmap]. unfold up_grid. cbn [g_nx g_ny g_nz g_size g_edges up_passive pl_lx pl_ly]. rewrite passives_up, map_length. do 2 f_equal.
  rewrite zrange_up, map_flat. apply flat_ext. intro i. rewrite map_flat. apply flat_ext. intro j. rewrite !map_map. apply map_ext. intro k.
  cbn [up_corner]. f_equal. rewrite plus_IZR. ring.
Qed.
Lemma round_small z x : Rabs x < 1 / 2 -> round_half_even (IZR z + x) = z.
Proof.
  intro H. pose proof (round_near (IZR z + x)) as N. assert (- (1/2) < x < 1/2) by (destruct (Rabs_def2 _ _ H); lra).
  assert (A : IZR (round_half_even (IZR z + x)) < IZR (z + 1)) by (rewrite plus_IZR; lra).
  assert (B : IZR (z - 1) < IZR (round_half_even (IZR z + x))) by (rewrite minus_IZR; lra). apply lt_IZR in A, B. lia.
Qed.
Lemma grid_stuck h ls s m nx ny nz : stack ls s m nx ny nz -> Rabs h < s / 2 -> grid_of (map (up_layer h) ls) = grid_of ls.
Proof.
  intros St Hh. destruct (stack_ends _ _ _ _ _ _ St) as (L & El & Es & Ex & Ey & Ez). assert (Hs : 0 < s) by apply St.
  assert (Q : forall r, (r * s + h) / s = r + h / s) by (intro; field; lra).
  assert (Hb : Rabs (h / s) < 1 / 2).
  { destruct (Rabs_def2 _ _ Hh). apply Rabs_def1; [apply Rmult_lt_reg_r with s|apply Rmult_lt_reg_r with s]; auto; unfold Rdiv; rewrite ?Rmult_assoc, ?Rinv_l; lra. }
  assert (Q' : forall r, r * s / s = r) by (intro; field; lra).
  rewrite (grid_ends ls L s _ m (m + Z.of_nat nz)%Z El Es Ez) by (cbn; rewrite Q'; apply round_half_even_int).
  rewrite (grid_ends _ (up_passive h L) s _ m (m + Z.of_nat nz)%Z (last_up _ _ _ El) Es (range_up _ _ _ Ez)) by (cbn [fst snd]; rewrite Q; now apply round_small).
  cbn [up_passive pl_lx pl_ly]. now rewrite passives_up, map_length.
Qed.
