From Coq Require Import Reals List Lra Lia ZArith Permutation.
From Verif Require Import Model.X0Infer Model.Classify Spec.InferSpec Spec.ClassifySpec Proofs.InferStateP Proofs.BlockP Proofs.OrderP.
From Verif Require Import Base.XR.
Open Scope R_scope.
Open Scope list_scope.

(* ---------- not a number ---------- *)
Definition nonfin (a : xr) : Prop := xisfin a = false.
Lemma xsum_nan l : In NaN l -> xsum l = NaN.
Proof.
  induction l as [|a l IH]; [intros []|]. intros [->|I]; cbn [xsum fold_right]; [reflexivity|]. fold (xsum l). rewrite (IH I).
  destruct a; reflexivity.
Qed.
Lemma xadd_nonfin a b : nonfin a \/ nonfin b -> nonfin (xadd a b).
Proof. unfold nonfin. destruct a, b; cbn; intros [H|H]; try discriminate; reflexivity. Qed.
Lemma xsum_nonfin l a : In a l -> nonfin a -> nonfin (xsum l).
Proof.
  intros I N. induction l as [|b l IH]; [destruct I|]. cbn [xsum fold_right]. fold (xsum l). apply xadd_nonfin.
  destruct I as [->|I]; auto.
Qed.
Lemma one_of_them c k x : nonfin x ->
  let w := xsigmoid (xmul (Fin k) (xsub x c)) in xmul w x = NaN \/ xmul (xsub (Fin 1) w) x = NaN.
Proof.
  unfold nonfin. cbv zeta. intros N.
  destruct x; try discriminate; [| |left; reflexivity]; destruct c; cbn [xsub xopp xadd xmul xsigmoid]; try (left; reflexivity);
    unfold inf_of_sign; repeat destruct (Rlt_dec _ _); cbn [xsigmoid xsub xadd xopp xmul]; unfold inf_of_sign;
    repeat destruct (Rlt_dec _ _); try lra; auto.
Qed.
Lemma map2_self (f : xr -> xr) l : map2 xmul (map f l) l = map (fun x => xmul (f x) x) l.
Proof. induction l as [|a l IH]; [reflexivity|]. cbn. now rewrite IH. Qed.
Lemma xdiv_nan_l b : xdiv NaN b = NaN. Proof. destruct b; reflexivity. Qed.
Lemma xsub_nan a b : a = NaN \/ b = NaN -> xsub a b = NaN.
Proof. intros [->| ->]; destruct a || destruct b; reflexivity. Qed.
Lemma xsort_length l : length (xsort l) = length l.
Proof.
  assert (I : forall x m, length (xinsert x m) = S (length m)).
  { intros x m. induction m as [|y m IH]; [reflexivity|]. cbn. destruct (xup x y); cbn; [reflexivity|]. now rewrite IH. }
  induction l as [|a l IH]; [reflexivity|]. cbn [xsort fold_right]. rewrite I. fold (xsort l). now rewrite IH.
Qed.
Lemma kth_ok frac (l : list xr) : l <> [] -> 0 <= frac <= 1 -> exists c, xkth (1 + round_half_even (frac * (INR (length l) - 1))) l = Ok c.
Proof.
  intros N F. assert (1 <= length l)%nat as L by (destruct l; [congruence|cbn; lia]). pose proof (cut_index frac _ L F) as [K1 K2].
  unfold xkth. rewrite (proj2 (Z.leb_le 1 _) K1), (proj2 (Z.leb_le _ _) K2). eexists. reflexivity.
Qed.
Lemma score_nan cut_coef offset coef frac l x : In x l -> nonfin x -> 0 <= frac <= 1 -> xblock_score cut_coef offset coef frac l = Ok NaN.
Proof.
  intros I N F. assert (l <> []) as Nl by (intros ->; destruct I). unfold xblock_score. destruct (kth_ok frac l Nl F) as [c ->]. cbn [bind].
  f_equal. rewrite map_map. unfold xmean_of. rewrite !map2_self.
  assert (E : forall a b, a = NaN \/ b = NaN -> xsigmoid (xmul (xadd (xdiv (xmul (Fin 2) (xsub a b)) (xadd a b)) (Fin offset)) (Fin coef)) = NaN).
  { intros a b H. rewrite (xsub_nan _ _ H). reflexivity. }
  apply E. destruct (one_of_them c cut_coef x N) as [H|H]; [left|right]; rewrite xsum_nan; try apply xdiv_nan_l; rewrite <- H;
    [apply (in_map (fun x => xmul (xsigmoid (xmul (Fin cut_coef) (xsub x c))) x)), I
    |apply (in_map (fun x => xmul (xsub (Fin 1) (xsigmoid (xmul (Fin cut_coef) (xsub x c)))) x)), I].
Qed.

(* ---------- numbers ---------- *)
Lemma sort_fin l : xsort (map Fin l) = map Fin (sort_up l).
Proof.
  assert (I : forall x m, xinsert (Fin x) (map Fin m) = map Fin (insert_up x m)).
  { intros x m. induction m as [|y m IH]; [reflexivity|]. cbn. unfold xup. cbn. rewrite Bool.orb_false_r.
    destruct (Rleb x y); cbn; [reflexivity|]. now rewrite IH. }
  induction l as [|a l IH]; [reflexivity|]. cbn [xsort fold_right map sort_up]. fold (xsort (map Fin l)) (sort_up l). now rewrite IH, I.
Qed.
Lemma kth_fin k l : xkth k (map Fin l) = rmap Fin (kthvalue k l).
Proof.
  unfold xkth, kthvalue. rewrite map_length, sort_fin. destruct (_ && _)%bool eqn:E; [|reflexivity]. cbn. f_equal.
  apply andb_prop in E as [A B]. apply Z.leb_le in A. apply Z.leb_le in B.
  rewrite (nth_indep _ NaN (Fin 0)); [apply (map_nth Fin)|]. rewrite map_length, (Permutation_length (sort_perm l)). lia.
Qed.
Lemma xsum_fin l : xsum (map Fin l) = Fin (Rsum l).
Proof. induction l as [|a l IH]; [reflexivity|]. cbn [map xsum fold_right]. fold (xsum (map Fin l)). now rewrite IH. Qed.
Lemma sigmoid_same x : sigmoid x = Rsigmoid x.
Proof. unfold sigmoid, Rsigmoid, Rdiv. apply Rmult_1_l. Qed.
Lemma xmean_fin w l : Rsum w <> 0 -> length w = length l -> xmean_of (map Fin w) (map Fin l) = Fin (wmean w l).
Proof.
  intros N L. unfold xmean_of, wmean. rewrite xsum_fin. replace (map2 xmul (map Fin w) (map Fin l)) with (map Fin (map2 Rmult w l)).
  - rewrite xsum_fin. now apply xdiv_fin.
  - clear N. revert l L. induction w as [|a w IH]; intros [|b l] L; try discriminate; [reflexivity|]. cbn. f_equal. apply IH. now injection L.
Qed.
Lemma score_fin cut_coef offset coef frac l : l <> [] -> (forall x, In x l -> 0 < x) -> 0 <= frac <= 1 ->
  xblock_score cut_coef offset coef frac (map Fin l) = rmap Fin (block_score cut_coef offset coef frac l).
Proof.
  intros N P F. unfold xblock_score, block_score, block_cut. rewrite map_length, kth_fin.
  destruct (kthvalue _ l) as [c|]; [|reflexivity]. cbn [rmap bind]. f_equal.
  replace (map (fun x => xsigmoid (xmul (Fin cut_coef) (xsub x (Fin c)))) (map Fin l)) with (map Fin (block_weights cut_coef c l)).
  2: { unfold block_weights. rewrite !map_map. apply map_ext. intro a. cbn. now rewrite sigmoid_same. }
  replace (map (fun w => xsub (Fin 1) w) (map Fin (block_weights cut_coef c l))) with (map Fin (map (fun w => 1 - w) (block_weights cut_coef c l))).
  2: { rewrite !map_map. apply map_ext. intro a. reflexivity. }
  unfold block_weights. set (f := fun x => Rsigmoid (cut_coef * (x - c))). rewrite (map_map f (fun w => 1 - w)).
  assert (Bf : forall a, 0 < f a < 1) by (intro; apply sigmoid_bounds).
  assert (S : forall h : R -> R, (forall a, 0 < h a) -> 0 < Rsum (map h l)).
  { intros h H. apply Rsum_pos; [destruct l; [congruence|discriminate]|]. intros x I. apply in_map_iff in I as (a & <- & _). apply H. }
  pose proof (S f (fun a => proj1 (Bf a))) as S1. assert (S2 : 0 < Rsum (map (fun x => 1 - f x) l)) by (apply S; intro a; pose proof (Bf a); lra).
  rewrite !xmean_fin by first [apply Rgt_not_eq; assumption | now rewrite map_length].
  assert (M : forall h : R -> R, (forall a, 0 < h a) -> 0 < wmean (map h l) l).
  { intros h H. unfold wmean. apply Rdiv_lt_0_compat; [|now apply S]. rewrite mul_map. apply Rsum_pos; [destruct l; [congruence|discriminate]|].
    intros x I. apply in_map_iff in I as (a & <- & Ia). apply Rmult_lt_0_compat; auto. }
  pose proof (M f (fun a => proj1 (Bf a))) as M1. assert (M2 : 0 < wmean (map (fun x => 1 - f x) l) l) by (apply M; intro a; pose proof (Bf a); lra).
  cbn [xsub xopp xadd xmul]. rewrite xdiv_fin by lra. cbn [xadd xmul xsigmoid]. rewrite sigmoid_same. unfold Rminus. reflexivity.
Qed.

(* ---------- the averaged voxels ---------- *)
Lemma pool_fin nz nx ny l : length l = (nz * nx * ny)%nat -> xavg_pool nz nx ny (map Fin l) = map Fin (avg_pool nz nx ny l).
Proof.
  intros L. unfold xavg_pool, avg_pool.
  assert (FM : forall {A} (p : A -> list R) k, map Fin (flat_map p k) = flat_map (fun a => map Fin (p a)) k).
  { intros A p k. induction k as [|a k IH]; [reflexivity|]. cbn. now rewrite map_app, IH. }
  assert (FE : forall {A C} (p q : A -> list C) k, (forall a, In a k -> p a = q a) -> flat_map p k = flat_map q k).
  { intros A C p q k H. rewrite !flat_map_concat_map. f_equal. now apply map_ext_in. }
  rewrite FM. apply FE. intros k Ik. rewrite FM. apply FE. intros i Ii. rewrite map_map. apply map_ext_in. intros j Ij.
  apply in_seq in Ik, Ii, Ij. cbv zeta.
  set (cells := flat_map (fun k' => flat_map (fun i' => map (fun j' => nth ((k' * nx + i') * ny + j') l 0) (around j ny)) (around i nx)) (around k nz)).
  assert (E : flat_map (fun k' => flat_map (fun i' => map (fun j' => nth ((k' * nx + i') * ny + j') (map Fin l) NaN) (around j ny)) (around i nx)) (around k nz) = map Fin cells).
  { unfold cells. rewrite FM. apply FE. intros k' Ik'. rewrite FM. apply FE. intros i' Ii'. rewrite map_map. apply map_ext_in. intros j' Ij'.
    apply around_in in Ik', Ii', Ij'. rewrite (nth_indep _ NaN (Fin 0)); [apply (map_nth Fin)|]. rewrite map_length, L.
    assert (A : (k' * nx + i' < nz * nx)%nat) by (clear - Ik' Ii'; nia). clear - A Ij'. nia. }
  rewrite E, xsum_fin, map_length. apply xdiv_fin. apply not_0_INR. unfold cells. intro Z.
  assert (In (nth ((k * nx + i) * ny + j) l 0) cells) as I.
  { apply in_flat_map. exists k. split; [apply around_self; lia|]. apply in_flat_map. exists i. split; [apply around_self; lia|].
    apply (in_map (fun j' => nth ((k * nx + i) * ny + j') l 0)), around_self. lia. }
  unfold cells in I. destruct (flat_map _ _); [destruct I|discriminate].
Qed.
Lemma pool_nonfin nz nx ny l x : length l = (nz * nx * ny)%nat -> In x l -> nonfin x -> exists y, In y (xavg_pool nz nx ny l) /\ nonfin y.
Proof.
  intros L I N. destruct (In_nth l x NaN I) as (n & Ln & E). rewrite L in Ln.
  assert (P : (0 < nx /\ 0 < ny)%nat) by nia. destruct P as [Px Py].
  pose proof (Nat.div_mod n ny ltac:(lia)) as D1. pose proof (Nat.mod_upper_bound n ny ltac:(lia)) as B1.
  pose proof (Nat.div_mod (n / ny) nx ltac:(lia)) as D2. pose proof (Nat.mod_upper_bound (n / ny) nx ltac:(lia)) as B2.
  set (j := (n mod ny)%nat) in *. set (q := (n / ny)%nat) in *. set (i := (q mod nx)%nat) in *. set (k := (q / nx)%nat) in *.
  assert (Q : (q < nz * nx)%nat) by (apply Nat.div_lt_upper_bound; nia). assert (K : (k < nz)%nat) by (apply Nat.div_lt_upper_bound; nia).
  assert (En : n = ((k * nx + i) * ny + j)%nat) by nia.
  eexists. split.
  - unfold xavg_pool. apply in_flat_map. exists k. split; [apply in_seq; lia|]. apply in_flat_map. exists i. split; [apply in_seq; lia|].
    apply in_map_iff. exists j. split; [reflexivity|apply in_seq; lia].
  - cbv zeta. set (cells := flat_map _ _). assert (Ic : In x cells).
    { apply in_flat_map. exists k. split; [now apply around_self|]. apply in_flat_map. exists i. split; [now apply around_self|].
      apply in_map_iff. exists j. split; [|now apply around_self]. now rewrite <- En. }
    pose proof (xsum_nonfin _ _ Ic N) as S. unfold nonfin in *. destruct (xsum cells); try discriminate; cbn; try reflexivity; destruct (Rlt_dec _ _); reflexivity.
Qed.

(* ---------- order and units ---------- *)
Lemma sorted_unique (l l' : list R) : Sorted.StronglySorted Rle l -> Sorted.StronglySorted Rle l' -> Permutation l l' -> l = l'.
Proof.
  revert l'. induction l as [|a l IH]; intros l' S S' P; [apply Permutation_nil in P; now subst|].
  destruct l' as [|b l']; [now apply Permutation_sym, Permutation_nil in P|].
  apply Sorted.StronglySorted_inv in S as [S F]. apply Sorted.StronglySorted_inv in S' as [S' F'].
  rewrite Forall_forall in F, F'.
  assert (a = b) as ->.
  { assert (In a (b :: l')) as Ia by (apply (Permutation_in _ P); now left). assert (In b (a :: l)) as Ib by (apply (Permutation_in _ (Permutation_sym P)); now left).
    destruct Ia as [->|Ia]; [reflexivity|]. destruct Ib as [->|Ib]; [reflexivity|]. pose proof (F _ Ib). pose proof (F' _ Ia). lra. }
  f_equal. apply IH; auto. now apply Permutation_cons_inv in P.
Qed.
Lemma sort_same l l' : Permutation l l' -> sort_up l = sort_up l'.
Proof.
  intro P. apply sorted_unique; try apply sort_sorted. transitivity l; [apply sort_perm|]. transitivity l'; [exact P|]. apply Permutation_sym, sort_perm.
Qed.
Lemma Rsum_perm l l' : Permutation l l' -> Rsum l = Rsum l'.
Proof. induction 1; cbn; lra. Qed.
Lemma wmean_perm (h : R -> R) l l' : Permutation l l' -> wmean (map h l) l = wmean (map h l') l'.
Proof. intro P. unfold wmean. rewrite !mul_map.
  rewrite (Rsum_perm _ _ (Permutation_map h P)), (Rsum_perm _ _ (Permutation_map (fun x => h x * x) P)). reflexivity. Qed.
Lemma score_perm cut_coef offset coef frac l l' : Permutation l l' -> block_score cut_coef offset coef frac l = block_score cut_coef offset coef frac l'.
Proof.
  intro P. unfold block_score, block_cut, kthvalue. rewrite (Permutation_length P), (sort_same _ _ P). destruct (_ && _)%bool; [|reflexivity]. cbn [bind].
  unfold block_weights. rewrite !map_map. now rewrite !(wmean_perm _ _ _ P).
Qed.
Lemma sort_scale k l : 0 < k -> sort_up (map (Rmult k) l) = map (Rmult k) (sort_up l).
Proof.
  intro K. assert (I : forall x m, insert_up (k * x) (map (Rmult k) m) = map (Rmult k) (insert_up x m)).
  { intros x m. induction m as [|y m IH]; [reflexivity|]. cbn. destruct (Rleb_spec (k * x) (k * y)), (Rleb_spec x y); cbn; try reflexivity; try nra. now rewrite IH. }
  induction l as [|a l IH]; [reflexivity|]. cbn [sort_up fold_right map]. fold (sort_up (map (Rmult k) l)) (sort_up l). now rewrite IH, I.
Qed.
Lemma wmean_scale k (h h' : R -> R) l : (forall x, h' (k * x) = h x) -> wmean (map h' (map (Rmult k) l)) (map (Rmult k) l) = k * wmean (map h l) l.
Proof.
  intro H. unfold wmean. rewrite !mul_map, !map_map. rewrite (map_ext (fun x => h' (k * x)) h H).
  rewrite (map_ext (fun x => h' (k * x) * (k * x)) (fun x => h x * x * k)) by (intro; rewrite H; ring).
  replace (Rsum (map (fun x => h x * x * k) l)) with (k * Rsum (map (fun x => h x * x) l)); [unfold Rdiv; ring|].
  clear. induction l as [|a l IH]; cbn; [ring|]. rewrite <- IH. ring.
Qed.
Lemma score_scale k cut_coef offset coef frac l : 0 < k ->
  block_score (cut_coef / k) offset coef frac (map (Rmult k) l) = block_score cut_coef offset coef frac l.
Proof.
  intro K. unfold block_score, block_cut, kthvalue. rewrite map_length, sort_scale by exact K.
  destruct (_ && _)%bool; [|reflexivity]. cbn [bind]. unfold block_weights.
  replace (nth (Z.to_nat (1 + round_half_even (frac * (INR (length l) - 1)) - 1)) (map (Rmult k) (sort_up l)) 0)
    with (k * nth (Z.to_nat (1 + round_half_even (frac * (INR (length l) - 1)) - 1)) (sort_up l) 0)
    by (rewrite <- (map_nth (Rmult k)); now rewrite Rmult_0_r).
  set (c := nth _ (sort_up l) 0). rewrite (map_map _ (fun w => 1 - w)), (map_map (fun x => Rsigmoid (cut_coef * (x - c)))).
  assert (W : forall x, Rsigmoid (cut_coef / k * (k * x - k * c)) = Rsigmoid (cut_coef * (x - c))) by (intro x; f_equal; field; lra).
  rewrite (wmean_scale k (fun x => Rsigmoid (cut_coef * (x - c)))) by exact W.
  rewrite (wmean_scale k (fun x => 1 - Rsigmoid (cut_coef * (x - c)))) by (intro x; now rewrite W).
  set (M := wmean _ l). set (m := wmean _ l). do 4 f_equal.
  rewrite <- !Rmult_minus_distr_l, <- !Rmult_plus_distr_l. destruct (Req_EM_T (M + m) 0) as [Z|Z].
  - rewrite Z, Rmult_0_r. unfold Rdiv. rewrite Rinv_0. ring.
  - field. split; [exact Z|lra].
Qed.

(* ---------- the most probable class ---------- *)
Lemma xup_total a b : xup a b = false -> xup b a = true.
Proof.
  unfold xup. destruct a, b; cbn; try discriminate; try reflexivity. rewrite !Bool.orb_false_r. destruct (Rleb_spec r r0), (Rleb_spec r0 r); try reflexivity; try discriminate; lra.
Qed.
Lemma xup_trans a b c : xup a b = true -> xup b c = true -> xup a c = true.
Proof.
  unfold xup. destruct a, b, c; cbn; try discriminate; try reflexivity. rewrite !Bool.orb_false_r. destruct (Rleb_spec r r0), (Rleb_spec r0 r1), (Rleb_spec r r1); try reflexivity; try discriminate; lra.
Qed.
Lemma xup_under a b : xup a b = false <-> under b a.
Proof.
  unfold xup, under. destruct a, b; cbn; split; intro H; try discriminate; try (let H' := fresh in pose proof H as H'; unfold not in H'; intuition (discriminate || congruence); fail);
    try (split; [discriminate|auto]; fail); try reflexivity.
  - rewrite Bool.orb_false_r in H. destruct (Rleb_spec r r0); [discriminate|]. split; [discriminate|]. right. unfold Rltb. destruct (Rlt_dec r0 r); [reflexivity|lra].
  - destruct H as [_ [H|H]]; [discriminate|]. rewrite Bool.orb_false_r. unfold Rltb in H. destruct (Rlt_dec r0 r); [|discriminate]. destruct (Rleb_spec r r0); [lra|reflexivity].
Qed.
Lemma best_spec l : match xbest l with
  | None => l = []
  | Some (i, b) => nth_error l i = Some b /\ (forall j a, nth_error l j = Some a -> xup a b = true)
                   /\ (forall j a, (j < i)%nat -> nth_error l j = Some a -> xup b a = false)
  end.
Proof.
  induction l as [|a l IH]; [reflexivity|]. cbn [xbest]. destruct (xbest l) as [[i b]|].
  - destruct IH as (H1 & H2 & H3). destruct (xup b a) eqn:E.
    + split; [reflexivity|]. split; [|intros j c J; lia]. intros [|j] c Hj; cbn in Hj; [injection Hj as <-; unfold xup; destruct a; cbn; try reflexivity; rewrite Bool.orb_false_r; destruct (Rleb_spec r r); [reflexivity|lra]|].
      apply (xup_trans _ b); eauto.
    + split; [exact H1|]. split.
      * intros [|j] c Hj; cbn in Hj; [injection Hj as <-; now apply xup_total|]. eauto.
      * intros [|j] c J Hj; cbn in Hj; [injection Hj as <-; exact E|]. apply (H3 j); [lia|exact Hj].
  - subst l. split; [reflexivity|]. split; [|intros j c J; lia]. intros [|[|j]] c Hj; cbn in Hj; try discriminate. injection Hj as <-.
    unfold xup; destruct a; cbn; try reflexivity; rewrite Bool.orb_false_r; destruct (Rleb_spec r r); [reflexivity|lra].
Qed.
Lemma best_map (f : R -> R) l : (forall x y, In x l -> In y l -> (x <= y <-> f x <= f y)) ->
  xbest (map Fin (map f l)) = match xbest (map Fin l) with Some (i, Fin b) => Some (i, Fin (f b)) | o => o end
  /\ forall i b, xbest (map Fin l) = Some (i, b) -> exists r, b = Fin r /\ In r l.
Proof.
  induction l as [|a l IH]; intro H; [split; [reflexivity|discriminate]|]. destruct IH as [E IHi]; [intros; apply H; now right|]. cbn [map xbest]. rewrite E.
  destruct (xbest (map Fin l)) as [[i b]|] eqn:Eb.
  - destruct (IHi i b eq_refl) as (r & -> & Ir). pose proof (H r a (or_intror Ir) (or_introl eq_refl)) as M. unfold xup. cbn. rewrite !Bool.orb_false_r.
    destruct (Rleb_spec r a), (Rleb_spec (f r) (f a)); try lra; (split; [reflexivity|]); intros i' b' G; injection G as <- <-; eexists; (split; [reflexivity|]); [now left|now right].
  - split; [reflexivity|]. intros i' b' G. injection G as <- <-. exists a. split; [reflexivity|now left].
Qed.

(* ---------- use over several batches ---------- *)
Section Uses.
Variables (g : grid) (cdf : R -> R -> R -> R) (eff_of : sview -> res (list xr)) (pred_unc : list xr -> tensor2 -> tensor2 -> list xr).
Context {B : Type} (answer : option (list xr) -> res B).
Definition as_read (o : cop) : iop := match o with CAdd v => X0Infer.Add v | CPredict => Ask RPrediction end.
Definition of_read (a : res ians) : res B :=
  x <- a ;; match x with AVec p => answer (Some p) | ANone => answer None | _ => Err TypeErr end.
Lemma use_as_reads ops : forall s, use_classifier g cdf eff_of answer ops s = map of_read (interact g cdf eff_of pred_unc (map as_read ops) s).
Proof.
  induction ops as [|[v|] ops IH]; intro s; [reflexivity|apply IH|]. cbn [map as_read interact use_classifier]. unfold classify, ask, seqA.
  destruct (get_prediction g cdf eff_of s) as [[[p|]|e] s']; cbn [map of_read bind lift ret]; rewrite IH; reflexivity.
Qed.
Lemma reads_of ops : forall bs, questions (map as_read ops) bs = map (fun b => (b, RPrediction)) (batches_before ops bs).
Proof. induction ops as [|[v|] ops IH]; intro bs; [reflexivity|apply IH|]. cbn. now rewrite IH. Qed.
Lemma use_fresh ops : effs_computed eff_of ops ->
  use_classifier g cdf eff_of answer ops new_inf = map (fun bs => fst (classify g cdf eff_of answer (given bs))) (batches_before ops []).
Proof.
  intro E. rewrite use_as_reads, reads_fresh.
  - rewrite reads_of, !map_map. apply map_ext. intro bs. cbn [fst snd]. unfold ask, classify, seqA.
    destruct (get_prediction g cdf eff_of (given bs)) as [[[p|]|e] s']; reflexivity.
  - intros v I. apply in_map_iff in I as ([v'|] & D & I); [|discriminate]. injection D as ->. now apply E.
Qed.
Lemma scan_reads bss : map as_read (scan_classify bss) = scan bss.
Proof. unfold scan_classify, scan. rewrite map_app, map_map. reflexivity. Qed.
End Uses.
