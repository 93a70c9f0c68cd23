From Coq Require Import Reals List Lra Lia ZArith Permutation.
From Verif Require Import Model.X0Infer Spec.VolumeSpec Spec.InferSpec Proofs.InferStateP Proofs.CombineP Proofs.InferAllP Proofs.OrderP.
From Verif Require Import Base.XR.
Open Scope R_scope.
Open Scope list_scope.

Lemma xadd_0_l s : xadd (Fin 0) s = s.
Proof. destruct s; cbn; try reflexivity. f_equal. ring. Qed.
Lemma weight_0 v : nan_to_num (xdiv (Fin 0) (Fin v)) = Fin 0.
Proof.
  cbn. destruct (Req_EM_T v 0); [|cbn; f_equal; unfold Rdiv; ring]. unfold inf_of_sign. destruct (Rlt_dec 0 0); [lra|]. reflexivity.
Qed.
Lemma wrms_cons0 x l w : weighted_rms (Fin x :: l) (Fin 0 :: w) = weighted_rms l w.
Proof.
  unfold weighted_rms. cbn [map2 xsum fold_right]. fold (xsum w). rewrite xadd_0_l.
  replace (xmul (xsquare (Fin x)) (Fin 0)) with (Fin 0) by (cbn; f_equal; ring).
  fold (xsum (map2 (fun a b => xmul (xsquare a) b) l w)). now rewrite xadd_0_l.
Qed.
Definition fin_at (row : list xr) (i : nat) : Prop := exists r, nth i row NaN = Fin r.
Lemma voxel_cons0 dz v u p V U E P : (forall i, (3 <= i <= 6)%nat -> fin_at v i /\ fin_at u i) -> nth 6 u NaN = Fin 0 ->
  voxel_x0 dz (v :: V) (u :: U) (Fin 0 :: E) (Fin p :: P) = voxel_x0 dz V U E P.
Proof.
  intros F U6. unfold voxel_x0, col. cbn [map map2]. replace (xmul (Fin 0) (Fin p)) with (Fin 0) by (cbn; f_equal; ring).
  assert (K : forall i V' W, (3 <= i <= 5)%nat ->
    weighted_rms (nth i v NaN :: V') (var_weights (Fin 0 :: map2 xmul E P) (sq_var (nth i v NaN) (nth i u NaN) :: W)) = weighted_rms V' (var_weights (map2 xmul E P) W)).
  { intros i V' W I. destruct (F i ltac:(lia)) as [(a & ->) (b & ->)]. unfold var_weights, sq_var. cbn [map2 xmul xsquare]. rewrite weight_0. apply wrms_cons0. }
  rewrite !K by lia. clear K. f_equal. destruct (F 6%nat ltac:(lia)) as [(a & ->) _]. rewrite U6.
  replace (sq_var (Fin a) (Fin 0)) with (Fin 0) by (unfold sq_var; cbn; f_equal; ring). cbn [forallb]. replace (xeq (Fin 0) (Fin 0)) with true by (cbn; unfold Reqb; destruct (Req_EM_T 0 0); congruence).
  cbn [andb]. destruct (forallb _ _); cbn [map]; unfold var_weights; cbn [map2]; rewrite weight_0; apply wrms_cons0.
Qed.

Section U.
Variables (g : grid) (cdf : R -> R -> R -> R).
Lemma zxy_len {A} (nx ny nz : nat) (d : A) l : length (to_zxy nx ny nz d l) = (nx * ny * nz)%nat.
Proof.
  unfold to_zxy. assert (H : forall {C D} (f : C -> list D) k n, (forall a, length (f a) = n) -> length (flat_map f k) = (length k * n)%nat).
  { intros C D f k n Hf. induction k as [|a k IH]; [reflexivity|]. cbn. now rewrite app_length, Hf, IH. }
  rewrite (H _ _ _ _ (nx * ny)%nat), seq_length; [ring|]. intro k. rewrite (H _ _ _ _ ny), seq_length; [reflexivity|]. intro i. now rewrite map_length, seq_length.
Qed.
Lemma fins k : all_numbers k = true -> forall i, (3 <= i <= 6)%nat -> fin_at (k_vars k) i /\ fin_at (k_uncs k) i.
Proof.
  intros N i I. unfold all_numbers in N. apply andb_prop in N as [A B]. rewrite forallb_forall in A, B. unfold fin_at.
  assert (L : forall row, length row = 7%nat -> (forall x, In x row -> xisfin x = true) -> exists r, nth i row NaN = Fin r).
  { intros row L H. assert (J : (i < length row)%nat) by lia. specialize (H (nth i row NaN) (nth_In row NaN J)). destruct (nth i row NaN); try discriminate. eauto. }
  split; apply L; auto; unfold k_vars, k_uncs; [destruct (k_poca k) as [[? ?] ?]|destruct (k_poca_u k) as [[? ?] ?]]; reflexivity.
Qed.
Lemma answer_cons0 k kept : kept <> [] -> all_numbers k = true -> poca_unc_ok k -> effic k = Fin 0 -> answer g cdf (k :: kept) = answer g cdf kept.
Proof.
  intros Ne N Q E. unfold answer, pprobs, ppreds. rewrite !map_length, !Nat.eqb_refl.
  cbn [map combine mapM fst snd length]. destruct (muon_probs cdf g (k_vars k) (k_uncs k)) as [r0|e0] eqn:E0.
  2: { exfalso. unfold muon_probs in E0. destruct (numbers_three k N) as [Tv Tu]. rewrite Tv, Tu in E0. unfold scales_ok, n3, poca_unc_ok in *.
       destruct (k_poca_u k) as [[x y] z]. unfold Rltb in E0. repeat destruct (Rlt_dec _ _); try lra. discriminate. }
  assert (R0 : forall j, (j < g_nx g * g_ny g * g_nz g)%nat -> exists p, nth j r0 NaN = Fin p).
  { intros j J. unfold muon_probs in E0. destruct (three (k_vars k)), (three (k_uncs k)); try discriminate. destruct (scales_ok _); [|discriminate]. injection E0 as <-.
    set (m := to_zxy _ _ _ _ _). exists (nth j m 0 + 1 / 1000000000000000).
    rewrite (nth_indep _ NaN (Fin (0 + 1 / 1000000000000000))) by (unfold m; now rewrite map_length, zxy_len). now rewrite (map_nth (fun w => Fin (w + 1 / 1000000000000000))). }
  set (L := combine (map k_vars kept) (map k_uncs kept)). cbn [bind].
  destruct (mapM (fun vu => muon_probs cdf g (fst vu) (snd vu)) L) as [r|e] eqn:El; [|reflexivity]. cbn [bind length].
  assert (Lr : length r = length kept).
  { assert (length r = length L) as ->; [|unfold L; rewrite combine_length, !map_length; lia]. clear - El. revert r El.
    induction L as [|a L IH]; intros r El; cbn [mapM] in El; [injection El as <-; reflexivity|]. destruct (muon_probs _ _ _ _); [|discriminate]. cbn [bind] in El.
    destruct (mapM _ L); [|discriminate]. cbn [bind] in El. injection El as <-. cbn. f_equal. now apply IH. }
  rewrite Lr. assert (S : shape_ok g (Datatypes.S (length kept)) (Datatypes.S (length kept)) = shape_ok g (length kept) (length kept)).
  { unfold shape_ok. f_equal. set (e := length (g_edges g)). set (v := (g_nx g * g_ny g * g_nz g)%nat). destruct kept as [|k' kept]; [congruence|]. cbn [length].
    destruct (Nat.eqb_spec (Datatypes.S (Datatypes.S (length kept)) * e) (Datatypes.S (Datatypes.S (length kept)) * v)), (Nat.eqb_spec (Datatypes.S (length kept) * e) (Datatypes.S (length kept) * v)); nia. }
  rewrite S. clear S. destruct (shape_ok g (length kept) (length kept)); [|reflexivity]. cbn [bind].
  assert (EV : voxel_preds g (k_vars k :: map k_vars kept) (k_uncs k :: map k_uncs kept) (effic k :: map effic kept) (r0 :: r)
    = voxel_preds g (map k_vars kept) (map k_uncs kept) (map effic kept) r).
  2: { now rewrite EV. }
  unfold voxel_preds. rewrite (map_ext_in _ (fun j => voxel_x0 (g_size g) (map k_vars kept) (map k_uncs kept) (map effic kept) (map (fun p => nth j p NaN) r))); [reflexivity|].
  intros j J. apply in_seq in J. cbn [map]. destruct (R0 j ltac:(lia)) as [p ->]. rewrite E. apply voxel_cons0; [now apply fins|].
  unfold k_uncs. destruct (k_poca_u k) as [[? ?] ?]. reflexivity.
Qed.
End U.
