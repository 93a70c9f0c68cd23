Require Import Reals Lra Lia ZArith.
From Coq Require Import Sorting.Permutation.
From Verif Require Import Model.Passives Spec.PassiveSpec.
Open Scope R_scope.
Open Scope list_scope.

Lemma round_bounds x : IZR (round_even x) - 1 / 2 <= x <= IZR (round_even x) + 1 / 2.
Proof.
  unfold round_even. destruct (Rfloor_bounds x). destruct (Rltb_spec (x - IZR (Rfloor x)) (1 / 2)); [lra|]. destruct (Rltb_spec (1 / 2) (x - IZR (Rfloor x))); [rewrite plus_IZR; lra|].
  destruct (Z.even _); [lra|rewrite plus_IZR; lra].
Qed.
Lemma round_int k : round_even (IZR k) = k.
Proof. unfold round_even. rewrite (Rfloor_unique (IZR k) k) by lra. destruct (Rltb_spec (IZR k - IZR k) (1 / 2)); [reflexivity|lra]. Qed.
Lemma IZR_lt_half a b : IZR a < IZR b + 1 -> (a <= b)%Z.
Proof. intros H. apply Z.lt_succ_r. apply lt_IZR. rewrite succ_IZR. exact H. Qed.
(* an index lies in the rounded range if its middle does, and only if it at least touches it *)
Lemma slice_in a b i : a < IZR i + 1 / 2 < b -> (round_even a <= i < round_even b)%Z.
Proof.
  intros H. pose proof (round_bounds a). pose proof (round_bounds b). split; [apply IZR_lt_half; lra|]. apply Z.le_succ_l. apply IZR_lt_half. rewrite succ_IZR. lra.
Qed.
Lemma slice_touch a b i : (round_even a <= i < round_even b)%Z -> a <= IZR i + 1 / 2 <= b.
Proof.
  intros [H1 H2]. pose proof (round_bounds a). pose proof (round_bounds b). apply IZR_le in H1. apply Z.le_succ_l, IZR_le in H2. rewrite succ_IZR in H2. lra.
Qed.
Lemma in_slice_spec n lo hi i : (0 <= lo)%Z -> (0 <= hi)%Z -> (0 <= i < n)%Z -> in_slice n lo hi i = true <-> (lo <= i < hi)%Z.
Proof.
  intros A B C. unfold in_slice, clip. rewrite (proj2 (Z.ltb_ge lo 0)), (proj2 (Z.ltb_ge hi 0)) by assumption. rewrite andb_true_iff, Z.leb_le, Z.ltb_lt. lia.
Qed.
Lemma voxel_grid (f : Z -> Z -> R) nx ny i j : (0 <= i < nx)%Z -> (0 <= j < ny)%Z -> voxel (grid nx ny f) i j = Some (f i j).
Proof.
  intros Hi Hj. unfold voxel, grid. assert (Hn : forall {A} (g : nat -> A) n k, (k < n)%nat -> nth_error (map g (seq 0 n)) k = Some (g k)).
  { intros A g n k Hk. rewrite nth_error_map, (nth_error_nth' (seq 0 n) 0%nat) by (now rewrite seq_length). rewrite seq_nth by exact Hk. reflexivity. }
  rewrite Hn by lia. rewrite Hn by lia. now rewrite !Z2Nat.id by lia.
Qed.
Lemma round_nonneg x : 0 <= x -> (0 <= round_even x)%Z.
Proof. intros H. pose proof (round_bounds x). apply IZR_lt_half. lra. Qed.
Lemma div_mid size a i : 0 < size -> (a / size < IZR i + 1 / 2 <-> a < mid size i) /\ (IZR i + 1 / 2 < a / size <-> mid size i < a) /\
  (a / size <= IZR i + 1 / 2 <-> a <= mid size i) /\ (IZR i + 1 / 2 <= a / size <-> mid size i <= a).
Proof.
  intros H. unfold mid. assert (E : a = a / size * size) by (field; lra). set (q := a / size) in *. rewrite E. repeat split; intros; nra.
Qed.
Lemma long_pos x : 0 <= x -> long x = Rfloor x.
Proof. intros H. unfold long. destruct (Rltb_spec x 0); [lra|reflexivity]. Qed.
Lemma long_mult n size : 0 < size -> (0 <= n)%Z -> long (IZR n * size / size) = n.
Proof. intros H Hn. replace (IZR n * size / size) with (IZR n) by (field; lra). rewrite long_pos by (now apply IZR_le). apply Rfloor_unique. lra. Qed.

(* shuffling *)
Lemma set_nth_len {A} i (x : A) l : length (set_nth i x l) = length l.
Proof. unfold set_nth. rewrite <- (firstn_skipn i l) at 3. rewrite !app_length. destruct (skipn i l); reflexivity. Qed.
Lemma set_nth_eq {A} i (x : A) l1 y l2 : length l1 = i -> set_nth i x (l1 ++ y :: l2) = l1 ++ x :: l2.
Proof. intros <-. unfold set_nth. rewrite firstn_app, Nat.sub_diag, firstn_all, skipn_app, Nat.sub_diag, skipn_all. cbn. now rewrite app_nil_r. Qed.
Lemma exchange_perm {A} i j (l : list A) : Permutation l (exchange i j l).
Proof.
  unfold exchange. destruct (nth_error l i) as [a|] eqn:Ea; [|apply Permutation_refl]. destruct (nth_error l j) as [b|] eqn:Eb; [|apply Permutation_refl].
  assert (W : forall i j (a b : A) l, (i < j)%nat -> nth_error l i = Some a -> nth_error l j = Some b -> exists l1 l2 l3, l = l1 ++ a :: l2 ++ b :: l3 /\ length l1 = i /\ (length l1 + S (length l2))%nat = j).
  { clear. intros i j a b l Hij Ha Hb. apply nth_error_split in Ha as (l1 & l2 & -> & <-). rewrite nth_error_app2 in Hb by lia. destruct (j - length l1)%nat as [|k] eqn:Ek; [lia|]. cbn in Hb.
    apply nth_error_split in Hb as (l3 & l4 & -> & <-). exists l1, l3, l4. repeat split. lia. }
  destruct (Nat.lt_trichotomy i j) as [L|[L|L]].
  - destruct (W i j a b l L Ea Eb) as (l1 & l2 & l3 & -> & E1 & E2). rewrite (set_nth_eq i b l1 a) by exact E1.
    replace (l1 ++ b :: l2 ++ b :: l3) with ((l1 ++ b :: l2) ++ b :: l3) by (now rewrite <- app_assoc). rewrite (set_nth_eq j a (l1 ++ b :: l2) b) by (rewrite app_length; cbn; lia). rewrite <- app_assoc. apply Permutation_app_head. cbn [app].
    apply perm_trans with (b :: a :: l2 ++ l3); [|apply perm_skip, Permutation_middle]. apply perm_trans with (a :: b :: l2 ++ l3); [apply perm_skip, Permutation_sym, Permutation_middle|apply perm_swap].
  - subst j. rewrite Ea in Eb. injection Eb as <-. apply nth_error_split in Ea as (l1 & l2 & -> & E). rewrite !(set_nth_eq i a l1 a) by exact E. apply Permutation_refl.
  - destruct (W j i b a l L Eb Ea) as (l1 & l2 & l3 & -> & E1 & E2). replace (set_nth i b (l1 ++ b :: l2 ++ a :: l3)) with (set_nth i b ((l1 ++ b :: l2) ++ a :: l3)) by (now rewrite <- app_assoc). rewrite (set_nth_eq i b (l1 ++ b :: l2) a) by (rewrite app_length; cbn; lia). rewrite <- app_assoc. cbn [app].
    rewrite (set_nth_eq j a l1 b) by exact E1. apply Permutation_app_head. apply perm_trans with (a :: b :: l2 ++ l3); [|apply perm_skip, Permutation_middle]. apply perm_trans with (b :: a :: l2 ++ l3); [apply perm_skip, Permutation_sym, Permutation_middle|apply perm_swap].
Qed.
Lemma shuffled_perm {A} draw (l : list A) : Permutation l (shuffled draw l).
Proof.
  unfold shuffled. generalize (length l - 1)%nat. intros i. revert l. induction i as [|i IH]; intros l; [apply Permutation_refl|]. cbn [shuffle_from]. eapply perm_trans; [apply exchange_perm|apply IH].
Qed.

(* iterating *)
Section It.
Context {L T : Type}.
Lemma consume_at draw (l : list (entry (L:=L) (T:=T))) n b : forall r k fuel, skipn k l = r -> (length r < fuel)%nat ->
  consume fuel draw (Yielder (Listed l) n b) (At k) = (map yielded r, None, Yielder (Listed l) n b, Finished).
Proof.
  induction r as [|e r IH]; intros k fuel E Hf; (destruct fuel as [|fuel]; [cbn in Hf; lia|]); cbn [consume next y_source].
  - assert (H : nth_error l k = None). { apply nth_error_None. apply (f_equal (@length _)) in E. rewrite skipn_length in E. cbn in E. lia. } now rewrite H.
  - assert (H : nth_error l k = Some e). { rewrite <- (firstn_skipn k l), E. assert (length (firstn k l) = k). { apply firstn_length_le. apply (f_equal (@length _)) in E. rewrite skipn_length in E. cbn in E. lia. }
      rewrite nth_error_app2 by lia. rewrite H, Nat.sub_diag. reflexivity. }
    rewrite H. cbn iota beta. rewrite IH; [reflexivity| |cbn in Hf; lia].
    transitivity (skipn 1 (skipn k l)); [|rewrite E; reflexivity]. clear. revert l. induction k as [|k IHk]; intros [|x l]; try reflexivity. cbn [skipn]. apply IHk.
Qed.
Lemma consume_list draw (l : list (entry (L:=L) (T:=T))) b fuel : (length l < fuel)%nat ->
  consume fuel draw (Yielder (Listed l) (length l) b) NotStarted = (let l' := if b then shuffled draw l else l in (map yielded l', None, Yielder (Listed l') (length l) b, Finished)).
Proof.
  intros Hf. destruct fuel as [|fuel]; [lia|]. transitivity (consume (S fuel) draw (Yielder (Listed (if b then shuffled draw l else l)) (length l) b) (At 0)); [destruct b; reflexivity|].
  apply consume_at; [reflexivity|]. destruct b; [|exact Hf]. rewrite <- (Permutation_length (shuffled_perm draw l)). exact Hf.
Qed.
Lemma consume_gen draw (outs : nat -> res (L * option T)) items n b : forall m k calls fuel, (k + m = n)%nat -> (m < fuel)%nat ->
  (forall i, (i < m)%nat -> outs (calls + i)%nat = Ok (items (calls + i)%nat)) ->
  consume fuel draw (Yielder (Generated outs calls) n b) (At k) = (map items (seq calls m), None, Yielder (Generated outs (calls + m)) n b, Finished).
Proof.
  induction m as [|m IH]; intros k calls fuel E Hf H; (destruct fuel as [|fuel]; [lia|]); cbn [consume next y_source y_n y_shuffle].
  - rewrite (proj2 (Nat.ltb_ge k n)) by lia. now rewrite Nat.add_0_r.
  - rewrite (proj2 (Nat.ltb_lt k n)) by lia. pose proof (H 0%nat ltac:(lia)) as H0. rewrite Nat.add_0_r in H0. rewrite H0. rewrite (IH (S k) (S calls) fuel); [|lia|lia|].
    + cbn [seq map]. now rewrite Nat.add_succ_r.
    + intros i Hi. specialize (H (S i) ltac:(lia)). rewrite Nat.add_succ_r in H. exact H.
Qed.
End It.
