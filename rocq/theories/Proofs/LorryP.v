(* Lemmas for C92. *)
From Coq Require Import Reals Lra Lia ZArith List Bool.
From Verif Require Import Base.RUtil Model.Passives Model.Lorry Spec.PassiveSpec Spec.LorrySpec Proofs.PassiveP.
Import ListNotations.
Open Scope R_scope.
Open Scope list_scope.

Lemma mapM_seq {A} (f : nat -> res A) (g : nat -> A) n : (forall i, (i < n)%nat -> f i = Ok (g i)) -> mapM f (seq 0 n) = Ok (map g (seq 0 n)).
Proof.
  assert (G : forall s, (forall i, (s <= i < s + n)%nat -> f i = Ok (g i)) -> mapM f (seq s n) = Ok (map g (seq s n))).
  { induction n as [|n IH]; intros s H; [reflexivity|]. cbn [seq mapM map]. rewrite H by lia. cbn [bind]. rewrite IH by (intros; apply H; lia). reflexivity. }
  intros H. apply G. intros. apply H. lia.
Qed.
Lemma at_ij_map {A} (f : nat -> nat -> A) nx ny i j : (i < nx)%nat -> (j < ny)%nat -> at_ij (map (fun i => map (f i) (seq 0 ny)) (seq 0 nx)) i j = Some (f i j).
Proof.
  intros Hi Hj. unfold at_ij. assert (Hn : forall {B} (g : nat -> B) n k, (k < n)%nat -> nth_error (map g (seq 0 n)) k = Some (g k)).
  { intros B g n k Hk. rewrite nth_error_map, (nth_error_nth' (seq 0 n) 0%nat) by (now rewrite seq_length). rewrite seq_nth by exact Hk. reflexivity. }
  rewrite Hn by lia. now rewrite Hn by lia.
Qed.
Lemma combos_spec n a b c : In (a, b, c) (combos n) <-> (1 <= a <= b)%nat /\ (b <= c <= n)%nat.
Proof.
  unfold combos. rewrite in_flat_map. split.
  - intros (i & Hi & H). apply in_flat_map in H as (j & Hj & H). apply in_map_iff in H as (k & [= <- <- <-] & Hk). apply in_seq in Hi, Hj, Hk. lia.
  - intros [H1 H2]. exists a. split; [apply in_seq; lia|]. apply in_flat_map. exists b. split; [apply in_seq; lia|]. apply in_map_iff. exists c. split; [reflexivity|]. apply in_seq. lia.
Qed.
Lemma NoDup_flat {A B} (f : A -> list B) l : NoDup l -> (forall a, In a l -> NoDup (f a)) -> (forall a a' b, In b (f a) -> In b (f a') -> a = a') -> NoDup (flat_map f l).
Proof.
  intros ND H1 H2. induction ND as [|a l Hn ND IH]; [constructor|]. cbn [flat_map].
  assert (G : forall k m : list B, NoDup k -> NoDup m -> (forall b, In b k -> ~ In b m) -> NoDup (k ++ m)).
  { clear. induction k as [|b k IH]; intros m Hk Hm Hd; [exact Hm|]. inversion Hk; subst. cbn. constructor.
    - rewrite in_app_iff. intros [X|X]; [contradiction|]. apply (Hd b); [now left|exact X].
    - apply IH; auto. intros b' Hb'. apply Hd. now right. }
  apply G; [apply H1; now left|apply IH; intros; apply H1; now right|].
  intros b Hb Hb'. apply in_flat_map in Hb' as (a' & Ha' & Hb'). rewrite (H2 a a' b Hb Hb') in Hn. contradiction.
Qed.
Lemma combos_nodup n : NoDup (combos n).
Proof.
  unfold combos. apply NoDup_flat; [apply seq_NoDup| |].
  - intros i _. apply NoDup_flat; [apply seq_NoDup| |].
    + intros j _. apply FinFun.Injective_map_NoDup; [|apply seq_NoDup]. intros x y E. now injection E.
    + intros j j' b H H'. apply in_map_iff in H as (x & <- & _). apply in_map_iff in H' as (y & E & _). now injection E.
  - intros i i' b H H'. apply in_flat_map in H as (j & _ & H). apply in_flat_map in H' as (j' & _ & H'). apply in_map_iff in H as (x & <- & _). apply in_map_iff in H' as (y & E & _). now injection E.
Qed.
Lemma pick_nat o a b c : (1 <= a)%nat -> (1 <= b)%nat -> (1 <= c)%nat ->
  exists a' b' c', pick3 o (INR a, INR b, INR c) = (INR a', INR b', INR c') /\ (a' * b' * c' = a * b * c)%nat /\ (1 <= a')%nat /\ (1 <= b')%nat /\ (1 <= c')%nat.
Proof. intros. destruct o; cbn [pick3]; do 3 eexists; (split; [reflexivity|]); (split; [lia|auto]). Qed.
Lemma long_int k : (0 <= k)%Z -> long (IZR k) = k.
Proof. intros H. rewrite long_pos by (now apply IZR_le). apply Rfloor_unique. lra. Qed.
Lemma low_voxel n a r : (a <= n)%nat -> 0 <= r < 1 ->
  exists i, long (uniform 0 (IZR (Z.of_nat n) - INR a) r) = Z.of_nat i /\ (i + a <= n)%nat.
Proof.
  intros Ha Hr. unfold uniform. rewrite <- INR_IZR_INZ. set (t := 0 + (INR n - INR a - 0) * r). apply le_INR in Ha. assert (T : 0 <= t <= INR n - INR a) by (unfold t; nra).
  rewrite long_pos by lra. destruct (Rfloor_bounds t) as [B1 B2]. assert (0 <= Rfloor t)%Z by (apply IZR_lt_half; lra). exists (Z.to_nat (Rfloor t)). split; [lia|].
  apply INR_le. rewrite plus_INR, INR_IZR_INZ, Z2Nat.id by assumption. lra.
Qed.
Lemma slice_nat n i0 a i : (i < n)%nat -> in_slice (Z.of_nat n) (long (IZR (Z.of_nat i0))) (long (IZR (Z.of_nat i0) + INR a)) (Z.of_nat i) = true <-> (i0 <= i < i0 + a)%nat.
Proof.
  intros Hi. rewrite (INR_IZR_INZ a), <- plus_IZR, !long_int by lia. rewrite in_slice_spec by lia. lia.
Qed.
(* which layers a block of c layers from the height l covers *)
Lemma layers w l c : 0 < w_size w -> fst (w_z w) + w_size w <= l ->
  exists k0, (1 <= k0)%nat /\ fst (w_z w) + INR (k0 + c) * w_size w <= l + INR c * w_size w /\
    forall k, Rltb l (top w k) && Rleb (top w k) (l + INR c * w_size w) = true <-> (k0 <= k < k0 + c)%nat.
Proof.
  intros Hs Hl. set (z0 := fst (w_z w)) in *. set (s := w_size w) in *. set (t := (l - z0) / s). assert (Et : l = z0 + t * s) by (unfold t; field; lra).
  assert (T1 : 1 <= t) by nra. destruct (Rfloor_bounds t) as [B1 B2]. assert (F1 : (1 <= Rfloor t)%Z) by (apply IZR_lt_half; lra).
  set (k0 := Z.to_nat (Rfloor t)). assert (E0 : INR k0 = IZR (Rfloor t)) by (unfold k0; rewrite INR_IZR_INZ, Z2Nat.id by lia; reflexivity). exists k0. split; [unfold k0; lia|]. rewrite plus_INR. split; [rewrite Et; nra|].
  intros k. unfold top. fold z0 s. rewrite andb_true_iff, Rltb_true, Rleb_true, plus_INR. change (INR 1) with 1. split.
  - intros [H1 H2]. assert (t < INR k + 1) by nra. assert (INR k + 1 <= t + INR c) by nra. split; [apply INR_le; apply Rnot_lt_le; intro X|].
    + assert (INR k + 1 <= INR k0) by (change 1 with (INR 1); rewrite <- plus_INR; apply le_INR; apply INR_lt in X; lia). lra.
    + apply INR_lt. rewrite plus_INR. apply Rnot_le_lt. intro X. lra.
  - intros [H1 H2]. apply le_INR in H1. assert (H3 : (k + 1 <= k0 + c)%nat) by lia. apply le_INR in H3. rewrite !plus_INR in H3. change (INR 1) with 1 in H3. split; rewrite Et; nra.
Qed.
