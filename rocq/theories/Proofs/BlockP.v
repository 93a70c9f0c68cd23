(* The dense-block classifier. *)
From Coq Require Import Psatz Lia ZArith Permutation Sorted.
From Verif Require Import Model.X0Infer Spec.VolumeSpec Spec.InferSpec Proofs.VolumeP Proofs.WAvgP Proofs.VoxelProbP.
Open Scope R_scope.
Open Scope list_scope.

Lemma sigmoid_bounds x : 0 < Rsigmoid x < 1.
Proof.
  unfold Rsigmoid. pose proof (exp_pos (- x)). split; [apply Rinv_0_lt_compat; lra|]. rewrite <- Rinv_1. apply Rinv_lt_contravar; lra.
Qed.
Lemma sigmoid_incr x y : x < y -> Rsigmoid x < Rsigmoid y.
Proof.
  intro H. unfold Rsigmoid. pose proof (exp_pos (- x)). pose proof (exp_pos (- y)). assert (exp (- y) < exp (- x)) by (apply exp_increasing; lra).
  apply Rinv_lt_contravar; [apply Rmult_lt_0_compat; lra|lra].
Qed.
Lemma sigmoid_mono x y : x <= y -> Rsigmoid x <= Rsigmoid y.
Proof. intros [H| ->]; [left; apply sigmoid_incr, H|lra]. Qed.

Lemma insert_perm x l : Permutation (insert_up x l) (x :: l).
Proof. induction l as [|y l IH]; simpl; [auto|]. destruct (Rleb x y); [auto|]. rewrite IH. apply perm_swap. Qed.
Lemma sort_perm l : Permutation (sort_up l) l.
Proof. induction l as [|x l IH]; simpl; [auto|]. fold (sort_up l). rewrite insert_perm, IH. auto. Qed.
Lemma insert_sorted x l : StronglySorted Rle l -> StronglySorted Rle (insert_up x l).
Proof.
  induction 1 as [|y l S IH F]; simpl; [repeat constructor|]. destruct (Rleb_spec x y) as [H|H].
  - constructor; [constructor; auto|]. constructor; auto. eapply Forall_impl; [|exact F]. cbn. intros. lra.
  - constructor; auto. apply Forall_forall. intros z I. apply (Permutation_in _ (insert_perm x l)) in I. destruct I as [<-|I]; [lra|]. rewrite Forall_forall in F. auto.
Qed.
Lemma sort_sorted l : StronglySorted Rle (sort_up l).
Proof. induction l as [|x l IH]; simpl; [constructor|]. apply insert_sorted, IH. Qed.
Lemma filter_perm {A} (f : A -> bool) l l' : Permutation l l' -> List.length (filter f l) = List.length (filter f l').
Proof. induction 1; simpl; auto; repeat (destruct (f _)); simpl; congruence. Qed.
(* in a sorted list without repetitions, k+1 elements are not above the k-th *)
Lemma count_sorted l : StronglySorted Rle l -> NoDup l -> forall k, (k < List.length l)%nat -> below_cut (nth k l 0) l = S k.
Proof.
  induction 1 as [|y l S IH F]; intros N k K; [simpl in K; lia|]. inversion N as [|? ? NI N']; subst. rewrite Forall_forall in F. unfold below_cut in *. destruct k as [|k].
  - cbn [nth filter]. destruct (Rleb_spec y y); [|lra]. cbn [List.length]. f_equal.
    destruct (filter (fun x => Rleb x y) l) as [|z zs] eqn:E; [auto|]. exfalso. assert (In z (filter (fun x => Rleb x y) l)) as I by (rewrite E; left; auto).
    apply filter_In in I as [I J]. apply Rleb_true in J. pose proof (F z I). assert (z = y) as -> by lra. auto.
  - cbn [nth filter]. simpl in K. destruct (Rleb_spec y (nth k l 0)) as [H|H]; [cbn [List.length]; f_equal; apply IH; auto; lia|].
    exfalso. apply H, F, nth_In. lia.
Qed.
Lemma kth_count k l : NoDup l -> (1 <= k <= Z.of_nat (List.length l))%Z -> exists cut, kthvalue k l = Ok cut /\ In cut l /\ Z.of_nat (below_cut cut l) = k.
Proof.
  intros N K. unfold kthvalue. rewrite (proj2 (Z.leb_le 1 k)), (proj2 (Z.leb_le k _)) by lia. cbn [andb]. eexists. split; [reflexivity|].
  pose proof (sort_perm l) as P. pose proof (Permutation_length P) as L. split.
  - apply (Permutation_in _ P), nth_In. lia.
  - unfold below_cut. rewrite <- (filter_perm _ _ _ P).
    change (Z.of_nat (below_cut (nth (Z.to_nat (k - 1)) (sort_up l) 0) (sort_up l)) = k).
    rewrite count_sorted; [lia|apply sort_sorted|eapply Permutation_NoDup; [symmetry; exact P|auto]|lia].
Qed.
Lemma round_near x : IZR (round_half_even x) - 1 / 2 <= x <= IZR (round_half_even x) + 1 / 2.
Proof.
  unfold round_half_even. pose proof (Rfloor_bounds x) as [A B].
  destruct (Rltb_spec (x - IZR (Rfloor x)) (1 / 2)); [lra|]. destruct (Rltb_spec (1 / 2) (x - IZR (Rfloor x))); [rewrite plus_IZR; lra|].
  destruct (Z.even (Rfloor x)); [lra|]. rewrite plus_IZR. lra.
Qed.
Lemma cut_index frac n : (1 <= n)%nat -> 0 <= frac <= 1 -> (1 <= 1 + round_half_even (frac * (INR n - 1)) <= Z.of_nat n)%Z.
Proof.
  intros N F. set (x := frac * (INR n - 1)). assert (1 <= INR n) by (apply (le_INR 1); auto).
  assert (0 <= x <= INR n - 1) as [X0 X1] by (unfold x; split; [apply Rmult_le_pos; lra|]; replace (INR n - 1) with (1 * (INR n - 1)) at 2 by ring; apply Rmult_le_compat_r; lra).
  pose proof (round_near x) as [A B]. rewrite INR_IZR_INZ in X1. split.
  - assert (-1 < round_half_even x)%Z; [|lia]. apply lt_IZR. lra.
  - assert (round_half_even x < Z.of_nat n)%Z; [|lia]. apply lt_IZR. lra.
Qed.
Lemma cut_size n_block l : (1 <= List.length l)%nat -> NoDup l -> (n_block <= 3 * List.length l)%nat ->
  exists cut, block_cut (block_frac n_block (List.length l)) l = Ok cut /\ In cut l
  /\ Z.of_nat (below_cut cut l) = (1 + round_half_even (INR n_block / INR (3 * List.length l) * (INR (List.length l) - 1)))%Z.
Proof.
  intros N D B. unfold block_cut, block_frac. apply kth_count; auto. apply cut_index; auto.
  assert (0 < INR (3 * List.length l)) by (apply lt_0_INR; lia). apply le_INR in B. pose proof (pos_INR n_block). split.
  - unfold Rdiv. apply Rmult_le_pos; auto. left. apply Rinv_0_lt_compat. auto.
  - apply Rmult_le_reg_r with (INR (3 * List.length l)); auto. unfold Rdiv. rewrite Rmult_assoc, Rinv_l, Rmult_1_l by lra. lra.
Qed.
Lemma cut_too_small n_block l : NoDup l -> (3 <= n_block <= List.length l)%nat ->
  exists cut, block_cut (block_frac n_block (List.length l)) l = Ok cut /\ (below_cut cut l < n_block)%nat.
Proof.
  intros D [A B]. destruct (cut_size n_block l) as (cut & E & _ & C); auto; [lia|lia|]. exists cut. split; auto.
  set (n := List.length l) in *. set (x := INR n_block / INR (3 * n) * (INR n - 1)) in *. pose proof (round_near x) as [L _].
  apply Nat2Z.inj_lt. rewrite C. apply lt_IZR. rewrite plus_IZR, <- INR_IZR_INZ.
  assert (3 <= INR n_block) by (replace 3 with (INR 3) by (simpl; ring); apply le_INR; auto). assert (0 < INR n) by (apply lt_0_INR; lia).
  assert (x <= INR n_block / 3); [|lra]. unfold x. rewrite mult_INR. replace (INR 3) with 3 by (simpl; ring).
  apply Rmult_le_reg_r with (INR n); auto. replace (INR n_block / (3 * INR n) * (INR n - 1) * INR n) with (INR n_block / 3 * (INR n - 1)) by (field; lra). nra.
Qed.

(* weighted means *)
Lemma wmean_avg w l : Rsum (map2 Rmult w l) = Rsum (map (fun vw => fst vw * snd vw) (combine l w)).
Proof. revert l. induction w as [|a w IH]; destruct l; simpl; auto. rewrite IH. lra. Qed.
Lemma wmean_map {A} (f g : A -> R) l : wmean (map f l) (map g l) = Rsum (map (fun a => f a * g a) l) / Rsum (map f l).
Proof. unfold wmean. rewrite map2_maps. reflexivity. Qed.
(* Chebyshev: larger values with weights that grow with the value have a larger mean *)
Lemma cheby_sum (f : R -> R) l y : (forall a b, a <= b -> f a <= f b) -> 
  0 <= Rsum (map (fun x => (f x - f y) * (x - y)) l).
Proof.
  intro M. apply Rsum_nonneg. intros z I. apply in_map_iff in I as (x & <- & _). destruct (Rle_dec x y) as [H|H].
  - pose proof (M x y H). assert (0 <= (f y - f x) * (y - x)) by (apply Rmult_le_pos; lra). lra.
  - pose proof (M y x ltac:(lra)). apply Rmult_le_pos; lra.
Qed.
Lemma cheby (f : R -> R) l : (forall a b, a <= b -> f a <= f b) ->
  Rsum (map f l) * Rsum l <= INR (List.length l) * Rsum (map (fun x => f x * x) l).
Proof.
  intro M. induction l as [|y l IH]; [simpl; lra|].
  pose proof (cheby_sum f l y M) as C.
  assert (Rsum (map (fun x => (f x - f y) * (x - y)) l) = Rsum (map (fun x => f x * x) l) - y * Rsum (map f l) - f y * Rsum l + INR (List.length l) * (f y * y)) as E.
  { rewrite (Rsum_map_ext _ (fun x => ((f x * x - y * f x) - f y * x) + f y * y)) by (intros; ring).
    rewrite (Rsum_map_plus (fun x => f x * x - y * f x - f y * x) (fun _ => f y * y)), (Rsum_map_minus (fun x => f x * x - y * f x) (fun x => f y * x)),
      (Rsum_map_minus (fun x => f x * x) (fun x => y * f x)), !Rsum_map_mult, Rsum_const, map_id. ring. }
  rewrite E in C. cbn [map Rsum]. change (List.length (y :: l)) with (S (List.length l)). rewrite S_INR.
  set (n := INR (List.length l)) in *. set (F := Rsum (map f l)) in *. set (Q := Rsum (map (fun x => f x * x) l)) in *. set (L := Rsum l) in *. lra.
Qed.
Lemma mul_map (g : R -> R) k : map2 Rmult (map g k) k = map (fun x => g x * x) k.
Proof. induction k; simpl; congruence. Qed.
Lemma mean_in l (Nl : l <> []) lo hi g : (forall x, In x l -> lo <= x <= hi) -> (forall a, 0 < g a) -> lo <= wmean (map g l) l <= hi.
Proof.
  intros B G. unfold wmean. assert (Rsum (map2 Rmult (map g l) l) = Rsum (map (fun x => g x * x) l)) as ->.
  { rewrite mul_map. reflexivity. }
  assert (0 < Rsum (map g l)) as P.
  { apply Rsum_pos; [destruct l; [congruence|discriminate]|]. intros x I. apply in_map_iff in I as (a & <- & _). apply G. }
  split; apply Rmult_le_reg_r with (1 := P); unfold Rdiv; rewrite Rmult_assoc, Rinv_l, Rmult_1_r by lra; rewrite <- Rsum_map_mult;
    apply Rsum_map_le; intros x I; rewrite (Rmult_comm (g x)); apply Rmult_le_compat_r; try (left; apply G); apply B, I.
Qed.
Section Means.
Variables (f : R -> R) (l : list R).
Hypotheses (Mf : forall a b, a <= b -> f a <= f b) (Bf : forall a, 0 < f a < 1) (Nl : l <> []).
Let w := map f l.
Let w' := map (fun x => 1 - x) w.
Lemma sums : 0 < Rsum w /\ 0 < Rsum w' /\ Rsum w + Rsum w' = INR (List.length l)
  /\ Rsum (map2 Rmult w l) + Rsum (map2 Rmult w' l) = Rsum l.
Proof.
  unfold w', w. rewrite !map_map. split; [|split; [|split]].
  - apply Rsum_pos; [destruct l; [congruence|discriminate]|]. intros x I. apply in_map_iff in I as (a & <- & _). apply Bf.
  - apply Rsum_pos; [destruct l; [congruence|discriminate]|]. intros x I. apply in_map_iff in I as (a & <- & _). pose proof (Bf a). lra.
  - rewrite (Rsum_map_minus (fun _ => 1) f), Rsum_const. lra.
  - clear. induction l as [|a k IH]; simpl; [lra|]. lra.
Qed.
Lemma means_order : wmean w' l <= wmean w l.
Proof.
  destruct sums as (P & P' & S & T). unfold wmean. pose proof (cheby f l Mf) as C.
  assert (Rsum (map (fun x => f x * x) l) = Rsum (map2 Rmult w l)) as E. { unfold w. rewrite mul_map. reflexivity. }
  rewrite E in C. fold w in C. set (A := Rsum (map2 Rmult w l)) in *. set (B := Rsum (map2 Rmult w' l)) in *. set (a := Rsum w) in *. set (b := Rsum w') in *.
  rewrite <- S, <- T in C. apply Rmult_le_reg_r with (a * b); [apply Rmult_lt_0_compat; auto|].
  replace (B / b * (a * b)) with (B * a) by (field; lra). replace (A / a * (a * b)) with (A * b) by (field; lra). lra.
Qed.
End Means.

Lemma score_spec cut_coef offset coef frac l : l <> [] -> (forall x, In x l -> 0 < x) -> 0 <= frac <= 1 -> 0 <= cut_coef ->
  exists r, block_score cut_coef offset coef frac l = Ok (Rsigmoid ((r + offset) * coef)) /\ 0 <= r < 2
  /\ ((forall x y, In x l -> In y l -> x = y) -> r = 0).
Proof.
  intros N P F C. unfold block_score, block_cut, kthvalue.
  assert (1 <= List.length l)%nat as L by (destruct l; [congruence|simpl; lia]). pose proof (cut_index frac _ L F) as [K1 K2].
  rewrite (proj2 (Z.leb_le 1 _) K1), (proj2 (Z.leb_le _ _) K2). cbn [andb bind]. set (cut := nth _ (sort_up l) 0). unfold block_weights.
  set (f := fun x => Rsigmoid (cut_coef * (x - cut))).
  assert (forall a b, a <= b -> f a <= f b) as Mf by (intros a b H; apply sigmoid_mono, Rmult_le_compat_l; lra).
  assert (forall a, 0 < f a < 1) as Bf by (intro; apply sigmoid_bounds).
  eexists. split; [reflexivity|]. pose proof (means_order f l Mf Bf N) as O.
  set (M := wmean (map f l) l) in *. set (m := wmean (map (fun x => 1 - x) (map f l)) l) in *.
  assert (exists lo, 0 < lo /\ forall x, In x l -> lo <= x) as (lo & Lo & HL).
  { clear - P. induction l as [|a k IH]; [exists 1; split; [lra|intros x []]|]. destruct IH as (lo & A & B); [intros; apply P; right; auto|].
    exists (Rmin a lo). split; [apply Rmin_glb_lt; [apply P; left|]; auto|]. intros x [<-|I]; [apply Rmin_l|]. eapply Rle_trans; [apply Rmin_r|]. auto. }
  assert (exists hi, forall x, In x l -> x <= hi) as (hi & HH).
  { clear. induction l as [|a k [hi B]]; [exists 1; intros x []|]. exists (Rmax a hi). intros x [<-|I]; [apply Rmax_l|]. eapply Rle_trans; [|apply Rmax_r]. auto. }
  assert (forall x, In x l -> lo <= x <= hi) as B by (intros x I; split; auto).
  assert (m = wmean (map (fun x => 1 - f x) l) l) as Em by (unfold m; rewrite map_map; reflexivity).
  assert (lo <= m) as Hm. { rewrite Em. apply (mean_in l N lo hi (fun x => 1 - f x)); auto. intro a. pose proof (Bf a). lra. }
  split.
  - split.
    + unfold Rdiv. apply Rmult_le_pos; [lra|]. left. apply Rinv_0_lt_compat. lra.
    + apply Rmult_lt_reg_r with (M + m); [lra|]. unfold Rdiv. rewrite Rmult_assoc, Rinv_l, Rmult_1_r by lra. lra.
  - intro Q. assert (exists a, In a l) as [a Ia] by (destruct l as [|a k]; [congruence|exists a; left; auto]).
    assert (forall x, In x l -> a <= x <= a) as Ba by (intros x I; rewrite (Q x a I Ia); lra).
    assert (a <= M <= a) by (apply (mean_in l N a a f); auto; intro; apply Bf).
    assert (a <= m <= a) by (rewrite Em; apply (mean_in l N a a (fun x => 1 - f x)); auto; intro b; pose proof (Bf b); lra).
    replace (M - m) with 0 by lra. unfold Rdiv. lra.
Qed.

(* blurring *)
Lemma around_in i n k : In k (around i n) -> (k < n)%nat.
Proof. intro I. apply filter_In in I as [I _]. apply in_seq in I. lia. Qed.
Lemma around_self i n : (i < n)%nat -> In i (around i n).
Proof. intro H. apply filter_In. split; [apply in_seq; lia|]. rewrite !(proj2 (Nat.leb_le _ _)) by lia. reflexivity. Qed.
Lemma pool_in nz nx ny l lo hi : List.length l = (nz * nx * ny)%nat -> (forall x, In x l -> lo <= x <= hi) ->
  List.length (avg_pool nz nx ny l) = List.length l /\ forall x, In x (avg_pool nz nx ny l) -> lo <= x <= hi.
Proof.
  intros L B. unfold avg_pool. split.
  - rewrite (length_flat_const _ (nx * ny)).
    + rewrite seq_length. lia.
    + intro k. rewrite (length_flat_const _ ny) by (intro; rewrite map_length, seq_length; auto). rewrite seq_length. auto.
  - intros x I. apply in_flat_map in I as (k & Ik & I). apply in_flat_map in I as (i & Ii & I). apply in_map_iff in I as (j & <- & Ij). apply in_seq in Ik, Ii, Ij.
    match goal with |- _ <= Rsum ?c / _ <= _ => set (cells := c) end.
    assert (forall y, In y cells -> lo <= y <= hi) as Bc.
    { intros y I. unfold cells in I. apply in_flat_map in I as (k' & Ik' & I). apply in_flat_map in I as (i' & Ii' & I). apply in_map_iff in I as (j' & <- & Ij').
      apply around_in in Ik', Ii', Ij'. apply B, nth_In. rewrite L.
      assert (k' * nx + i' < nz * nx)%nat as A by (assert (S k' * nx <= nz * nx)%nat by (apply Nat.mul_le_mono_r; lia); simpl in *; lia).
      assert (S (k' * nx + i') * ny <= nz * nx * ny)%nat by (apply Nat.mul_le_mono_r; lia). simpl in *. lia. }
    assert (cells <> []) as Nc.
    { intro E. assert (In (nth ((k * nx + i) * ny + j) l 0) cells) as I; [|rewrite E in I; destruct I].
      unfold cells. apply in_flat_map. exists k. split; [apply around_self; lia|]. apply in_flat_map. exists i. split; [apply around_self; lia|].
      apply in_map_iff. exists j. split; auto. apply around_self; lia. }
    clearbody cells. assert (0 < INR (List.length cells)) as P by (apply lt_0_INR; destruct cells; [congruence|simpl; lia]).
    assert (forall c, INR (List.length cells) * c = Rsum (map (fun _ : R => c) cells)) as Cst by (intro; symmetry; apply Rsum_const).
    assert (Rsum (map (fun _ => lo) cells) <= Rsum (map (fun x => x) cells) <= Rsum (map (fun _ => hi) cells)) as Q by (split; apply Rsum_map_le; intros y I; apply Bc; auto).
    rewrite map_id, <- !Cst in Q.
    split; apply Rmult_le_reg_r with (1 := P); unfold Rdiv; rewrite Rmult_assoc, Rinv_l, Rmult_1_r by lra; lra.
Qed.
