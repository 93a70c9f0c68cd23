(* C110: X0 inference with x and y exchanged. *)
From Coq Require Import Reals List Lia Lra ZArith.
From Verif Require Import Model.Volume Model.X0Infer Spec.VolumeSpec Spec.InferSpec Spec.TurnSpec Proofs.VolumeP Proofs.VolumeRun Proofs.VoxelProbP Proofs.InferStateP Proofs.CombineP Proofs.InferAllP Proofs.OrderP.
From Verif Require Import Base.XR.
Open Scope R_scope.
Open Scope list_scope.

(* lists written as arrays *)
Definition arr {A} (a b c : nat) (f : nat -> nat -> nat -> A) : list A := flat_map (fun k => flat_map (fun i => map (fun j => f k i j) (seq 0 b)) (seq 0 a)) (seq 0 c).
Lemma arr_length {A} a b c (f : nat -> nat -> nat -> A) : List.length (arr a b c f) = (a * b * c)%nat.
Proof.
  unfold arr. rewrite (length_flat_const _ (a * b)).
  - rewrite seq_length. lia.
  - intro k. rewrite (length_flat_const _ b) by (intro; rewrite map_length, seq_length; auto). rewrite seq_length. auto.
Qed.
Lemma flat_ext_in {A B} (f g : A -> list B) l : (forall a, In a l -> f a = g a) -> flat_map f l = flat_map g l.
Proof. intro H. induction l as [|a l IH]; [reflexivity|]. cbn. rewrite (H a), IH; auto; [intros; apply H; right; auto|left; reflexivity]. Qed.
Lemma arr_ext {A} a b c (f g : nat -> nat -> nat -> A) : (forall k i j, (k < c)%nat -> (i < a)%nat -> (j < b)%nat -> f k i j = g k i j) -> arr a b c f = arr a b c g.
Proof. intro H. unfold arr. apply flat_ext_in. intros k K. apply flat_ext_in. intros i I. apply map_ext_in. intros j J. apply in_seq in K, I, J. apply H; lia. Qed.
Lemma arr_map {A B} (h : A -> B) a b c f : map h (arr a b c f) = arr a b c (fun k i j => h (f k i j)).
Proof. unfold arr. rewrite map_flat. apply flat_ext_in. intros k _. rewrite map_flat. apply flat_ext_in. intros i _. apply map_map. Qed.
Lemma seq_split n b : seq 0 (n * b) = flat_map (fun i => map (fun j => (i * b + j)%nat) (seq 0 b)) (seq 0 n).
Proof.
  induction n as [|n IH]; [reflexivity|]. replace (S n * b)%nat with (n * b + b)%nat by lia. rewrite seq_app, IH, seq_S, flat_map_app. cbn [flat_map]. rewrite app_nil_r. f_equal. cbn.
  generalize (n * b)%nat as s. clear. induction b as [|b IH] in |- *; intro s; [reflexivity|]. rewrite !seq_S, map_app, <- IH. reflexivity.
Qed.
Lemma flat_flat {A B C} (f : B -> list C) (g : A -> list B) l : flat_map f (flat_map g l) = flat_map (fun a => flat_map f (g a)) l.
Proof. induction l as [|a l IH]; [reflexivity|]. cbn. rewrite flat_map_app, IH. reflexivity. Qed.
Lemma flat_mapl {A B C} (f : B -> list C) (g : A -> B) l : flat_map f (map g l) = flat_map (fun a => f (g a)) l.
Proof. induction l as [|a l IH]; [reflexivity|]. cbn. rewrite IH. reflexivity. Qed.
Lemma arr_lt a b c k i j : (k < c)%nat -> (i < a)%nat -> (j < b)%nat -> ((k * a + i) * b + j < a * b * c)%nat.
Proof.
  intros K I J. assert (A : (S k * a <= c * a)%nat) by (apply Nat.mul_le_mono_r; lia). assert (B : (S (k * a + i) * b <= c * a * b)%nat) by (apply Nat.mul_le_mono_r; cbn in A; lia).
  replace (a * b * c)%nat with (c * a * b)%nat by ring. cbn in B. lia.
Qed.
(* counting through an array *)
Lemma arr_seq {A} a b c (h : nat -> A) : map h (seq 0 (a * b * c)) = arr a b c (fun k i j => h ((k * a + i) * b + j)%nat).
Proof.
  replace (a * b * c)%nat with (c * a * b)%nat by ring. rewrite seq_split, map_flat, (seq_split c a), flat_flat. unfold arr. apply flat_ext_in. intros k _. rewrite flat_mapl.
  apply flat_ext_in. intros i _. apply map_map.
Qed.
Lemma arr_nth {A} (d : A) a b c f k i j : (k < c)%nat -> (i < a)%nat -> (j < b)%nat -> nth ((k * a + i) * b + j) (arr a b c f) d = f k i j.
Proof.
  intros K I J. set (g := fun n => f (n / b / a)%nat (n / b mod a)%nat (n mod b)%nat).
  assert (G : forall k i j, (k < c)%nat -> (i < a)%nat -> (j < b)%nat -> g ((k * a + i) * b + j)%nat = f k i j).
  { intros k' i' j' _ I' J'. unfold g. rewrite Nat.div_add_l, (Nat.div_small j' b), Nat.add_0_r by lia. rewrite Nat.div_add_l, (Nat.div_small i' a), Nat.add_0_r by lia. f_equal.
    - rewrite (Nat.add_comm (k' * a) i'), Nat.mod_add by lia. apply Nat.mod_small, I'.
    - rewrite (Nat.add_comm ((k' * a + i') * b) j'), Nat.mod_add by lia. apply Nat.mod_small, J'. }
  pose proof (arr_lt a b c k i j K I J) as L.
  rewrite <- (arr_ext a b c _ _ G), <- (arr_seq a b c g), <- (G k i j K I J). rewrite (nth_indep _ d (g 0%nat)) by (rewrite map_length, seq_length; exact L).
  rewrite map_nth, seq_nth by exact L. reflexivity.
Qed.
Lemma as_arr {A} (d : A) a b c l : List.length l = (a * b * c)%nat -> l = arr a b c (fun k i j => nth ((k * a + i) * b + j) l d).
Proof.
  intro L. rewrite <- (arr_seq a b c (fun n => nth n l d)), <- L. clear. induction l as [|x l IH]; [reflexivity|]. cbn [List.length seq map nth]. rewrite <- seq_shift, map_map. f_equal. exact IH.
Qed.

(* one muon *)
Section T.
Variables (g g' : grid) (T : turned g g').
Notation nx := (g_nx g). Notation ny := (g_ny g). Notation nz := (g_nz g).
Notation turn := (turn_preds nx ny nz).
Lemma turn_arr f : turn (arr nx ny nz f) = arr ny nx nz (fun k j i => f k i j).
Proof. change (arr ny nx nz (fun k j i => nth ((k * nx + i) * ny + j) (arr nx ny nz f) NaN) = arr ny nx nz (fun k j i => f k i j)). apply arr_ext. intros k j i K J I. now apply arr_nth. Qed.
Lemma three_turn p r : three (t3 (turn3 p) ++ r) = option_map turn3 (three (t3 p ++ r)).
Proof. destruct p as [[x y] z]. destruct x, y, z; reflexivity. Qed.
Lemma prob_turn cdf s p u e : voxel_prob cdf s (turn3 p) (turn3 u) (turn3 e) = voxel_prob cdf s p u e.
Proof. destruct p as [[? ?] ?], u as [[? ?] ?], e as [[? ?] ?]. cbn. ring. Qed.
Lemma scales_turn u : scales_ok (turn3 u) = scales_ok u.
Proof. destruct u as [[x y] z]. cbn. now rewrite (Bool.andb_comm (Rltb 0 (y + _))). Qed.
Definition probs_arr cdf p u : list xr := arr nx ny nz (fun k i j => Fin (nth ((i * ny + j) * nz + k) (map (voxel_prob cdf (g_size g) p u) (g_edges g)) 0 + 1 / 1000000000000000)).
Lemma probs_turn cdf p u : map (fun w => Fin (w + 1 / 1000000000000000)) (to_zxy (g_nx g') (g_ny g') (g_nz g') 0 (map (voxel_prob cdf (g_size g') (turn3 p) (turn3 u)) (g_edges g'))) = turn (probs_arr cdf p u).
Proof.
  destruct T as (-> & -> & -> & -> & L & L' & E). unfold probs_arr. rewrite turn_arr.
  change (map (fun w => Fin (w + 1 / 1000000000000000)) (arr ny nx nz (fun k j i => nth ((j * nx + i) * nz + k) (map (voxel_prob cdf (g_size g) (turn3 p) (turn3 u)) (g_edges g')) 0)) = arr ny nx nz (fun k j i => Fin (nth ((i * ny + j) * nz + k) (map (voxel_prob cdf (g_size g) p u) (g_edges g)) 0 + 1 / 1000000000000000))).
  rewrite arr_map. apply arr_ext. intros k j i K J I. do 2 f_equal. specialize (E i j k I J K).
  assert (B : ((i * ny + j) * nz + k < nx * ny * nz)%nat) by (replace (nx * ny * nz)%nat with (ny * nz * nx)%nat by ring; now apply arr_lt). rewrite <- L in B. apply nth_error_Some in B. destruct (nth_error (g_edges g) _) as [e|] eqn:Ee; [|congruence]. cbn [option_map] in E.
  rewrite (nth_error_nth (map (voxel_prob cdf (g_size g) (turn3 p) (turn3 u)) (g_edges g')) _ 0 (x := voxel_prob cdf (g_size g) p u e)) by (rewrite nth_error_map, E; cbn; now rewrite prob_turn).
  symmetry. apply nth_error_nth. now rewrite nth_error_map, Ee.
Qed.
Lemma muon_turn cdf m : muon_probs cdf g' (k_vars (turn_seen m)) (k_uncs (turn_seen m)) = rmap turn (muon_probs cdf g (k_vars m) (k_uncs m))
  /\ forall l, muon_probs cdf g (k_vars m) (k_uncs m) = Ok l -> List.length l = (nx * ny * nz)%nat.
Proof.
  unfold muon_probs. unfold k_vars, k_uncs. cbn [turn_seen k_poca k_poca_u k_tot k_in k_out k_mom k_tot_u k_in_u k_out_u]. rewrite !three_turn.
  destruct (three (t3 (k_poca m) ++ _)) as [p|]; [|split; [reflexivity|discriminate]]. destruct (three (t3 (k_poca_u m) ++ _)) as [u|]; [|split; [reflexivity|discriminate]]. cbn [option_map]. rewrite scales_turn.
  destruct (scales_ok u); [|split; [reflexivity|discriminate]].
  assert (Q : map (fun w => Fin (w + 1 / 1000000000000000)) (to_zxy nx ny nz 0 (map (voxel_prob cdf (g_size g) p u) (g_edges g))) = probs_arr cdf p u).
  { exact (arr_map (fun w => Fin (w + 1 / 1000000000000000)) nx ny nz _). }
  rewrite probs_turn, Q. split; [reflexivity|]. intros l [= <-]. apply arr_length.
Qed.
Lemma muons_turn cdf kept : mapM (fun vu => muon_probs cdf g' (fst vu) (snd vu)) (combine (map k_vars (map turn_seen kept)) (map k_uncs (map turn_seen kept)))
  = rmap (map turn) (mapM (fun vu => muon_probs cdf g (fst vu) (snd vu)) (combine (map k_vars kept) (map k_uncs kept)))
  /\ forall P, mapM (fun vu => muon_probs cdf g (fst vu) (snd vu)) (combine (map k_vars kept) (map k_uncs kept)) = Ok P -> Forall (fun l => List.length l = (nx * ny * nz)%nat) P.
Proof.
  induction kept as [|m kept [IH IL]]; [split; [reflexivity|intros P [= <-]; constructor]|]. cbn [map combine mapM fst snd]. destruct (muon_turn cdf m) as [-> H]. rewrite IH. clear IH.
  destruct (muon_probs cdf g (k_vars m) (k_uncs m)) as [l|e]; [|split; [reflexivity|discriminate]]. cbn [rmap bind].
  destruct (mapM _ (combine (map k_vars kept) _)) as [P|e]; [|split; [reflexivity|discriminate]]. cbn [rmap bind]. split; [reflexivity|]. intros P' [= <-]. constructor; auto.
Qed.
Lemma turn_in l x : List.length l = (nx * ny * nz)%nat -> (In x (turn l) <-> In x l).
Proof.
  intro L. rewrite (as_arr NaN nx ny nz l L). rewrite turn_arr. unfold arr. split; intro H.
  - apply in_flat_map in H as (k & K & H). apply in_flat_map in H as (j & J & H). apply in_map_iff in H as (i & <- & I). apply in_flat_map. exists k. split; [exact K|]. apply in_flat_map. exists i. split; [exact I|]. apply in_map_iff. exists j. auto.
  - apply in_flat_map in H as (k & K & H). apply in_flat_map in H as (i & I & H). apply in_map_iff in H as (j & <- & J). apply in_flat_map. exists k. split; [exact K|]. apply in_flat_map. exists j. split; [exact J|]. apply in_map_iff. exists i. auto.
Qed.
Lemma preds_turn kept E P : Forall (fun l => List.length l = (nx * ny * nz)%nat) P ->
  voxel_preds g' (map k_vars (map turn_seen kept)) (map k_uncs (map turn_seen kept)) E (map turn P) = rmap turn (voxel_preds g (map k_vars kept) (map k_uncs kept) E P).
Proof.
  intro F. unfold voxel_preds.
  assert (C : forall i f, (f = k_vars \/ f = k_uncs) -> (3 <= i)%nat -> X0Infer.col i (map f (map turn_seen kept)) = X0Infer.col i (map f kept)).
  { intros i f Hf I. unfold X0Infer.col. rewrite !map_map. apply map_ext. intro m. destruct Hf as [-> | ->]; [unfold k_vars|unfold k_uncs]; unfold t3; cbn [turn_seen k_poca k_poca_u k_tot k_in k_out k_mom k_tot_u k_in_u k_out_u];
      [destruct (k_poca m) as [[? ?] ?]|destruct (k_poca_u m) as [[? ?] ?]]; cbn [turn3 app]; (destruct i as [|[|[|i]]]; [lia|lia|lia|reflexivity]). }
  set (f := fun j => voxel_x0 (g_size g) (map k_vars kept) (map k_uncs kept) E (map (fun p => nth j p NaN) P)).
  assert (Q : map (fun j => voxel_x0 (g_size g') (map k_vars (map turn_seen kept)) (map k_uncs (map turn_seen kept)) E (map (fun p => nth j p NaN) (map turn P))) (seq 0 (g_nx g' * g_ny g' * g_nz g')) = turn (map f (seq 0 (nx * ny * nz)))).
  { destruct T as (-> & -> & -> & -> & _). rewrite !arr_seq, turn_arr. apply arr_ext. intros k j i K J I. unfold f, voxel_x0. rewrite !C by auto with arith. cbv zeta.
    assert (N : map (fun p => nth ((k * ny + j) * nx + i) p NaN) (map turn P) = map (fun p => nth ((k * nx + i) * ny + j) p NaN) P).
    { rewrite map_map. apply map_ext_in. intros l Hl. rewrite Forall_forall in F. specialize (F l Hl). rewrite (as_arr NaN nx ny nz l F) at 1. rewrite turn_arr. rewrite arr_nth by assumption. reflexivity. }
    rewrite N. reflexivity. }
  rewrite Q. set (X := map f _). assert (LX : List.length X = (nx * ny * nz)%nat) by (unfold X; rewrite map_length, seq_length; reflexivity).
  assert (B : existsb xisnan (turn X) = existsb xisnan X).
  { apply Bool.eq_true_iff_eq. rewrite !existsb_exists. split; intros (x & I & Hx); exists x; (split; [|exact Hx]); [rewrite <- turn_in by exact LX|apply turn_in; [exact LX|]]; exact I. }
  rewrite B. destruct (existsb xisnan X); reflexivity.
Qed.
Lemma answer_turn cdf kept : answer g' cdf (map turn_seen kept) = rmap (turn_answer nx ny nz) (answer g cdf kept).
Proof.
  unfold answer, pprobs, ppreds. rewrite !map_length, !Nat.eqb_refl. destruct (muons_turn cdf kept) as [-> F].
  destruct (mapM _ (combine (map k_vars kept) _)) as [P|e]; [|reflexivity]. cbn [rmap bind]. specialize (F P eq_refl). rewrite map_length.
  assert (S : shape_ok g' (List.length kept) (List.length P) = shape_ok g (List.length kept) (List.length P)).
  { unfold shape_ok. destruct T as (-> & -> & -> & _ & -> & -> & _). now rewrite (Nat.mul_comm ny nx). }
  rewrite S. clear S. destruct (shape_ok g _ _); [|reflexivity]. cbn [bind].
  rewrite (map_map turn_seen effic). change (map (fun x => effic (turn_seen x)) kept) with (map effic kept).
  rewrite preds_turn by exact F. destruct (voxel_preds g _ _ _ _); reflexivity.
Qed.
End T.
Lemma seen_turn m : all_numbers (turn_seen m) = all_numbers m.
Proof. unfold all_numbers, k_vars, k_uncs, t3, turn_seen. cbn. destruct (k_poca m) as [[[] []] z], (k_poca_u m) as [[[] []] w]; cbn; rewrite ?Bool.andb_false_r; reflexivity. Qed.
Lemma filter_turn l : filter all_numbers (map turn_seen l) = map turn_seen (filter all_numbers l).
Proof. induction l as [|k l IH]; [reflexivity|]. cbn [map filter]. rewrite seen_turn, IH. destruct (all_numbers k); reflexivity. Qed.

(* the grid *)
Lemma passives_turn ls : passives (map turn_layer ls) = map turn_passive (passives ls).
Proof. unfold passives. induction ls as [|[L|D] ls IH]; cbn; [reflexivity|now rewrite IH|exact IH]. Qed.
Lemma stack_turn ls s m nx ny nz : stack ls s m nx ny nz -> stack (map turn_layer ls) s m ny nx nz.
Proof.
  intros (Hs & Hn & Hp & Hk). split; [exact Hs|]. rewrite passives_turn. split; [now rewrite map_length|]. split; [tauto|].
  intros k L E. rewrite <- map_rev, nth_error_map in E. destruct (nth_error _ k) as [L0|] eqn:E0; [|discriminate]. injection E as <-. destruct (Hk k L0 E0) as (H1 & H2 & H3 & H4). cbn. auto.
Qed.
Lemma grid_turn ls s m nx ny nz : stack ls s m nx ny nz -> exists g g', grid_of ls = Ok g /\ grid_of (map turn_layer ls) = Ok g' /\ turned g g' /\ g_nx g = nx /\ g_ny g = ny /\ g_nz g = nz.
Proof.
  intro St. destruct (grid_stack _ _ _ _ _ _ St) as (es & E & L & N). destruct (grid_stack _ _ _ _ _ _ (stack_turn _ _ _ _ _ _ St)) as (es' & E' & L' & N').
  do 2 eexists. split; [exact E|]. split; [exact E'|]. split; [|cbn; auto]. unfold turned. cbn. repeat split; auto; [rewrite L'; ring|]. intros i j k I J K. rewrite N, N' by assumption. reflexivity.
Qed.
