(* C110: X0 inference with mirrored muons. *)
From Coq Require Import Reals List Lia Lra ZArith.
From Verif Require Import Model.Volume Model.X0Infer Spec.VolumeSpec Spec.InferSpec Spec.MirrorSpec Proofs.VolumeP Proofs.VolumeRun Proofs.VoxelProbP Proofs.InferStateP Proofs.CombineP Proofs.InferAllP Proofs.OrderP Proofs.TurnP.
From Verif Require Import Base.XR.
Open Scope R_scope.
Open Scope list_scope.

Section M.
Variables (w : R) (g : grid) (T : even_grid w g) (cdf : R -> R -> R -> R) (Y : symmetric cdf).
Notation nx := (g_nx g). Notation ny := (g_ny g). Notation nz := (g_nz g).
Notation mirror := (mirror_preds nx ny nz).
Notation mseen := (mirror_seen w).
Definition mir (p : R * R * R) : R * R * R := let '(x, y, z) := p in (w - x, y, z).
Lemma mirror_arr f : mirror (arr nx ny nz f) = arr nx ny nz (fun k i j => f k (nx - 1 - i)%nat j).
Proof. change (arr nx ny nz (fun k i j => nth ((k * nx + (nx - 1 - i)) * ny + j) (arr nx ny nz f) NaN) = arr nx ny nz (fun k i j => f k (nx - 1 - i)%nat j)). apply arr_ext. intros k i j K I J. apply arr_nth; auto; lia. Qed.
Lemma three_mirror p r : three (t3 (mirror_x w p) ++ r) = option_map mir (three (t3 p ++ r)).
Proof. destruct p as [[x y] z]. destruct x, y, z; reflexivity. Qed.
Lemma prob_mirror s p u x y z : voxel_prob cdf s (mir p) u (w - x - s, y, z) = voxel_prob cdf s p u (x, y, z).
Proof.
  destruct p as [[px py] pz], u as [[ux uy] uz]. cbn. replace (w - x - s + s) with (w - x) by ring. replace (w - x - s) with (w - (x + s)) by ring. rewrite !Y. ring.
Qed.
Definition mprobs p u : list xr := arr nx ny nz (fun k i j => Fin (nth ((i * ny + j) * nz + k) (map (voxel_prob cdf (g_size g) p u) (g_edges g)) 0 + 1 / 1000000000000000)).
Lemma probs_mirror p u : mprobs (mir p) u = mirror (mprobs p u).
Proof.
  destruct T as (L & E). unfold mprobs. rewrite mirror_arr. apply arr_ext. intros k i j K I J. do 2 f_equal. destruct (E i j k I J K) as (x & y & z & E1 & E2).
  rewrite (nth_error_nth (map (voxel_prob cdf (g_size g) (mir p) u) (g_edges g)) _ 0 (x := voxel_prob cdf (g_size g) p u (x, y, z))) by (rewrite nth_error_map, E2; cbn [option_map]; now rewrite prob_mirror).
  symmetry. apply nth_error_nth. now rewrite nth_error_map, E1.
Qed.
Lemma muon_mirror m : muon_probs cdf g (k_vars (mseen m)) (k_uncs (mseen m)) = rmap mirror (muon_probs cdf g (k_vars m) (k_uncs m))
  /\ forall l, muon_probs cdf g (k_vars m) (k_uncs m) = Ok l -> List.length l = (nx * ny * nz)%nat.
Proof.
  unfold muon_probs. unfold k_vars, k_uncs. cbn [mirror_seen k_poca k_poca_u k_tot k_in k_out k_mom k_tot_u k_in_u k_out_u]. rewrite three_mirror.
  destruct (three (t3 (k_poca m) ++ _)) as [p|]; [|split; [reflexivity|discriminate]]. destruct (three (t3 (k_poca_u m) ++ _)) as [u|]; [|split; [reflexivity|discriminate]]. cbn [option_map].
  destruct (scales_ok u); [|split; [reflexivity|discriminate]].
  assert (Q : forall p, map (fun v => Fin (v + 1 / 1000000000000000)) (to_zxy nx ny nz 0 (map (voxel_prob cdf (g_size g) p u) (g_edges g))) = mprobs p u).
  { intro q. exact (arr_map (fun v => Fin (v + 1 / 1000000000000000)) nx ny nz _). }
  rewrite !Q, probs_mirror. split; [reflexivity|]. intros l [= <-]. apply arr_length.
Qed.
Lemma muons_mirror kept : mapM (fun vu => muon_probs cdf g (fst vu) (snd vu)) (combine (map k_vars (map mseen kept)) (map k_uncs (map mseen kept)))
  = rmap (map mirror) (mapM (fun vu => muon_probs cdf g (fst vu) (snd vu)) (combine (map k_vars kept) (map k_uncs kept)))
  /\ forall P, mapM (fun vu => muon_probs cdf g (fst vu) (snd vu)) (combine (map k_vars kept) (map k_uncs kept)) = Ok P -> Forall (fun l => List.length l = (nx * ny * nz)%nat) P.
Proof.
  induction kept as [|m kept [IH IL]]; [split; [reflexivity|intros P [= <-]; constructor]|]. cbn [map combine mapM fst snd]. destruct (muon_mirror m) as [-> H]. rewrite IH. clear IH.
  destruct (muon_probs cdf g (k_vars m) (k_uncs m)) as [l|e]; [|split; [reflexivity|discriminate]]. cbn [rmap bind].
  destruct (mapM _ (combine (map k_vars kept) _)) as [P|e]; [|split; [reflexivity|discriminate]]. cbn [rmap bind]. split; [reflexivity|]. intros P' [= <-]. constructor; auto.
Qed.
Lemma mirror_in l x : List.length l = (nx * ny * nz)%nat -> (In x (mirror l) <-> In x l).
Proof.
  intro L. rewrite (as_arr NaN nx ny nz l L). rewrite mirror_arr. unfold arr. split; intro H.
  - apply in_flat_map in H as (k & K & H). apply in_flat_map in H as (i & I & H). apply in_map_iff in H as (j & <- & J). apply in_seq in I. apply in_flat_map. exists k. split; [exact K|]. apply in_flat_map. exists (nx - 1 - i)%nat. split; [apply in_seq; lia|]. apply in_map_iff. exists j. auto.
  - apply in_flat_map in H as (k & K & H). apply in_flat_map in H as (i & I & H). apply in_map_iff in H as (j & <- & J). apply in_seq in I. apply in_flat_map. exists k. split; [exact K|]. apply in_flat_map. exists (nx - 1 - i)%nat. split; [apply in_seq; lia|]. apply in_map_iff. exists j. split; [|exact J].
    replace (nx - 1 - (nx - 1 - i))%nat with i by lia. reflexivity.
Qed.
Lemma preds_mirror kept E P : Forall (fun l => List.length l = (nx * ny * nz)%nat) P ->
  voxel_preds g (map k_vars (map mseen kept)) (map k_uncs (map mseen kept)) E (map mirror P) = rmap mirror (voxel_preds g (map k_vars kept) (map k_uncs kept) E P).
Proof.
  intro F. unfold voxel_preds.
  assert (C : forall i, (3 <= i)%nat -> X0Infer.col i (map k_vars (map mseen kept)) = X0Infer.col i (map k_vars kept)).
  { intros i I. unfold X0Infer.col. rewrite !map_map. apply map_ext. intro m. unfold k_vars, t3. cbn [mirror_seen k_poca k_tot k_in k_out k_mom]. destruct (k_poca m) as [[? ?] ?]. cbn [mirror_x app]. destruct i as [|[|[|i]]]; [lia|lia|lia|reflexivity]. }
  rewrite (map_map mseen k_uncs). change (map (fun x => k_uncs (mseen x)) kept) with (map k_uncs kept).
  set (f := fun j => voxel_x0 (g_size g) (map k_vars kept) (map k_uncs kept) E (map (fun p => nth j p NaN) P)).
  assert (Q : map (fun j => voxel_x0 (g_size g) (map k_vars (map mseen kept)) (map k_uncs kept) E (map (fun p => nth j p NaN) (map mirror P))) (seq 0 (nx * ny * nz)) = mirror (map f (seq 0 (nx * ny * nz)))).
  { rewrite !arr_seq, mirror_arr. apply arr_ext. intros k i j K I J. unfold f, voxel_x0. rewrite !C by auto with arith. cbv zeta.
    assert (N : map (fun p => nth ((k * nx + i) * ny + j) p NaN) (map mirror P) = map (fun p => nth ((k * nx + (nx - 1 - i)) * ny + j) p NaN) P).
    { rewrite map_map. apply map_ext_in. intros l Hl. rewrite Forall_forall in F. specialize (F l Hl). rewrite (as_arr NaN nx ny nz l F) at 1. rewrite mirror_arr. rewrite arr_nth by assumption. reflexivity. }
    rewrite N. reflexivity. }
  rewrite Q. set (X := map f _). assert (LX : List.length X = (nx * ny * nz)%nat) by (unfold X; rewrite map_length, seq_length; reflexivity).
  assert (B : existsb xisnan (mirror X) = existsb xisnan X).
  { apply Bool.eq_true_iff_eq. rewrite !existsb_exists. split; intros (x & I & Hx); exists x; (split; [|exact Hx]); [rewrite <- mirror_in by exact LX|apply mirror_in; [exact LX|]]; exact I. }
  rewrite B. destruct (existsb xisnan X); reflexivity.
Qed.
Lemma answer_mirror kept : answer g cdf (map mseen kept) = rmap (mirror_answer nx ny nz) (answer g cdf kept).
Proof.
  unfold answer, pprobs, ppreds. rewrite !map_length, !Nat.eqb_refl. destruct (muons_mirror kept) as [-> F].
  destruct (mapM _ (combine (map k_vars kept) _)) as [P|e]; [|reflexivity]. cbn [rmap bind]. specialize (F P eq_refl). rewrite map_length.
  destruct (shape_ok g _ _); [|reflexivity]. cbn [bind].
  rewrite (map_map mseen effic). change (map (fun x => effic (mseen x)) kept) with (map effic kept).
  rewrite preds_mirror by exact F. destruct (voxel_preds g _ _ _ _); reflexivity.
Qed.
End M.
Lemma seen_mirror w m : all_numbers (mirror_seen w m) = all_numbers m.
Proof. unfold all_numbers, k_vars, k_uncs, t3, mirror_seen. cbn. destruct (k_poca m) as [[[] y] z]; reflexivity. Qed.
Lemma filter_mirror w l : filter all_numbers (map (mirror_seen w) l) = map (mirror_seen w) (filter all_numbers l).
Proof. induction l as [|k l IH]; [reflexivity|]. cbn [map filter]. rewrite seen_mirror, IH. destruct (all_numbers k); reflexivity. Qed.
Lemma grid_even ls s m nx ny nz : stack ls s m nx ny nz -> exists g, grid_of ls = Ok g /\ even_grid (INR nx * s) g /\ g_nx g = nx /\ g_ny g = ny /\ g_nz g = nz.
Proof.
  intro St. destruct (grid_stack _ _ _ _ _ _ St) as (es & E & L & N). eexists. split; [exact E|]. split; [|cbn; auto]. split; [exact L|]. cbn. intros i j k I J K.
  do 3 eexists. split; [apply N; auto; lia|]. rewrite N by assumption. do 3 f_equal. rewrite !minus_INR by lia. cbn. ring.
Qed.
