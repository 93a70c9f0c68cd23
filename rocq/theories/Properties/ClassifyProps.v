(* Property C112: classifiers that are built on X0 predictions. *)
From Coq Require Import Reals List Lra Lia ZArith Permutation.
From Verif Require Import Model.Ladle Proofs.LadleP.
From Verif Require Import Model.X0Infer Model.Classify Spec.InferSpec Spec.ClassifySpec Proofs.InferStateP Proofs.BlockP Proofs.OrderP Proofs.ClassifyP.
From Verif Require Import Properties.OrderProps.
From Verif Require Import Base.XR.
Open Scope R_scope.
Open Scope list_scope.

(* C112. Whatever is done with a classifier, each of its answers is the one of a new classifier that was given the same batches and asked
   once: nothing is kept from earlier predictions. *)
Theorem C112_fresh :
  forall g cdf eff_of B (answer : option (list xr) -> res B) ops, effs_computed eff_of ops ->
  use_classifier g cdf eff_of answer ops new_inf = map (fun bs => fst (classify g cdf eff_of answer (given bs))) (batches_before ops []).
Proof. intros. now apply use_fresh. Qed.
Print Assumptions C112_fresh.
Example C112_fresh_case :
  let ops := [CPredict; CAdd (Ok (view [seen_muon 1 0 0 2])); CPredict; CPredict; CAdd (Ok (view [seen_muon 2 0 0 2])); CPredict] in
  effs_computed panel_efficiency ops /\ map (@length (res sview)) (batches_before ops []) = [0; 1; 1; 2]%nat.
Proof.
  intro ops. split; [|reflexivity]. intros v I. unfold ops in I. cbn [In] in I.
  destruct I as [I|[I|[I|[I|[I|[I|[]]]]]]]; try discriminate; injection I as <-; eexists; split; reflexivity.
Qed.

(* C112. Its prediction depends on the muons that can be used and on nothing else: not on their order, nor on the batches. *)
Theorem C112_usable :
  forall g cdf B (answer : option (list xr) -> res B) bss bss', bss <> [] -> bss' <> [] -> two_panels bss -> two_panels bss' ->
  Permutation (filter all_numbers (concat bss)) (filter all_numbers (concat bss')) ->
  use_classifier g cdf panel_efficiency answer (scan_classify bss) new_inf = use_classifier g cdf panel_efficiency answer (scan_classify bss') new_inf.
Proof.
  intros g cdf B answer bss bss' N N' T T' P. rewrite !(use_as_reads g cdf panel_efficiency (fun p _ _ => p) answer), !scan_reads. f_equal. now apply C96_usable.
Qed.
Print Assumptions C112_usable.
Theorem C112_twice :
  forall g cdf B (answer : option (list xr) -> res B) bss, two_panels bss ->
  use_classifier g cdf panel_efficiency answer (scan_classify (bss ++ bss)) new_inf = use_classifier g cdf panel_efficiency answer (scan_classify bss) new_inf.
Proof.
  intros g cdf B answer bss T. rewrite !(use_as_reads g cdf panel_efficiency (fun p _ _ => p) answer), !scan_reads. f_equal. now apply C96_twice.
Qed.
Print Assumptions C112_twice.

(* C112. The dense-block score of positive voxel predictions is the one that C40 describes. *)
Theorem C112_numbers :
  forall avgpool nz nx ny cut_coef offset coef frac l, l <> [] -> length l = (nz * nx * ny)%nat -> (forall x, In x l -> 0 < x) -> 0 <= frac <= 1 ->
  dense_answer avgpool nz nx ny cut_coef offset coef frac (Some (map Fin l)) = rmap Fin (block_prediction avgpool nz nx ny cut_coef offset coef frac (Some l)).
Proof.
  intros avgpool nz nx ny cut_coef offset coef frac l N L P F. unfold dense_answer, block_prediction. destruct avgpool; [|now apply score_fin].
  rewrite pool_fin by exact L.
  assert (exists lo hi, 0 < lo /\ forall x, In x l -> lo <= x <= hi) as (lo & hi & Lo & B).
  { clear - P. induction l as [|a k IH]; [exists 1, 1; split; [lra|intros x []]|]. destruct IH as (lo & hi & A & B); [intros; apply P; right; auto|].
    exists (Rmin a lo), (Rmax a hi). split; [apply Rmin_glb_lt; [apply P; left|]; auto|]. intros x [<-|I]; [split; [apply Rmin_l|apply Rmax_l]|].
    destruct (B x I). split; [eapply Rle_trans; [apply Rmin_r|auto]|eapply Rle_trans; [|apply Rmax_r]; auto]. }
  destruct (pool_in nz nx ny l lo hi L B) as [Lp Bp]. apply score_fin; [|intros x I; destruct (Bp x I); lra|exact F].
  intro E. rewrite E in Lp. destruct l; [congruence|discriminate].
Qed.
Print Assumptions C112_numbers.
(* C112. One voxel whose prediction is NaN or infinite makes the score NaN, wherever it is and whatever the others are; there is no
   exception. *)
Theorem C112_not_a_number :
  forall avgpool nz nx ny cut_coef offset coef frac l x, length l = (nz * nx * ny)%nat -> In x l -> xisfin x = false -> 0 <= frac <= 1 ->
  dense_answer avgpool nz nx ny cut_coef offset coef frac (Some l) = Ok NaN.
Proof.
  intros avgpool nz nx ny cut_coef offset coef frac l x L I N F. unfold dense_answer. destruct avgpool; [|now apply (score_nan _ _ _ _ _ x)].
  destruct (pool_nonfin nz nx ny l x L I N) as (y & Iy & Ny). now apply (score_nan _ _ _ _ _ y).
Qed.
Print Assumptions C112_not_a_number.
Example C112_numbers_case :
  length [1; 2; 3; 4] = (2 * 1 * 2)%nat /\ (forall x, In x [1; 2; 3; 4] -> 0 < x)
  /\ length [Fin 1; NaN; Fin 2; Fin 3] = (2 * 1 * 2)%nat /\ In NaN [Fin 1; NaN; Fin 2; Fin 3].
Proof. split; [reflexivity|]. split; [cbn; intuition lra|]. split; [reflexivity|]. cbn. auto. Qed.

(* C112. Without averaging over neighbours, where a voxel is does not count. *)
Theorem C112_places :
  forall nz nx ny cut_coef offset coef frac l l', Permutation l l' ->
  block_prediction false nz nx ny cut_coef offset coef frac (Some l) = block_prediction false nz nx ny cut_coef offset coef frac (Some l').
Proof. intros. now apply score_perm. Qed.
Print Assumptions C112_places.
Example C112_places_case : Permutation [1; 2; 3] [2; 3; 1].
Proof. apply (Permutation_cons_append [2; 3] 1). Qed.
(* C112. With other units of length the sharpness of the cut must be changed too; then the score is the same. *)
Theorem C112_units :
  forall k cut_coef offset coef frac l, 0 < k ->
  block_score (cut_coef / k) offset coef frac (map (Rmult k) l) = block_score cut_coef offset coef frac l.
Proof. intros. now apply score_scale. Qed.
Print Assumptions C112_units.
(* with the sharpness as it is, the score depends on the unit *)
Theorem C112_units_refuted :
  exists k cut_coef offset coef frac l, 0 < k /\ (forall x, In x l -> 0 < x)
  /\ block_score cut_coef offset coef frac (map (Rmult k) l) <> block_score cut_coef offset coef frac l.
Proof.
  exists 2, 1, 0, 1, 0, [1; 2]. split; [lra|]. split; [cbn; intuition lra|].
  assert (R0 : round_half_even (0 * (INR 2 - 1)) = 0%Z).
  { pose proof (round_near (0 * (INR 2 - 1))) as [A B]. rewrite Rmult_0_l in *. set (z := round_half_even 0) in *.
    assert (-1 < z < 1)%Z by (split; apply lt_IZR; lra). lia. }
  unfold block_score, block_cut. cbn [length map]. rewrite R0. unfold kthvalue. cbn [length]. change (1 + 0)%Z with 1%Z. cbn [Z.leb Z.compare andb Z.of_nat Pos.of_succ_nat Pos.compare Pos.compare_cont Pos.succ].
  change (Z.to_nat (1 - 1)) with 0%nat. unfold sort_up. cbn [fold_right insert_up].
  destruct (Rleb_spec (2 * 1) (2 * 2)); [|lra]. destruct (Rleb_spec 1 2); [|lra]. cbn [nth bind block_weights map]. unfold wmean. cbn [map2 Rsum map].
  set (s := Rsigmoid (1 * (2 - 1))). set (t := Rsigmoid (1 * (2 * 2 - 2 * 1))).
  assert (H : Rsigmoid (1 * (2 * 1 - 2 * 1)) = 1 / 2 /\ Rsigmoid (1 * (1 - 1)) = 1 / 2).
  { split; unfold Rsigmoid; replace (- (1 * _)) with 0 by lra; rewrite exp_0; lra. }
  destruct H as [-> ->]. assert (S : 0 < s < 1) by apply sigmoid_bounds. assert (T : 0 < t < 1) by apply sigmoid_bounds.
  assert (st : s < t) by (apply sigmoid_incr; lra). intro E. injection E as E.
  match type of E with Rsigmoid ?a = Rsigmoid ?b => assert (Eab : a = b) by
    (destruct (Rtotal_order a b) as [L|[L|L]]; [apply sigmoid_incr in L; lra|exact L|apply sigmoid_incr in L; lra]) end.
  clearbody s t.
  match type of Eab with (2 * (?M' - ?m') / _ + 0) * 1 = (2 * (?M - ?m) / _ + 0) * 1 => set (A' := M') in *; set (a' := m') in *; set (A := M) in *; set (a := m) in * end.
  assert (HA' : A' = 2 * (2 - (1 / 2) / (1 / 2 + t))) by (unfold A'; cbn; field; lra).
  assert (Ha' : a' = 2 * (2 - (1 / 2) / (3 / 2 - t))) by (unfold a'; cbn; field; lra).
  assert (HA : A = 2 - (1 / 2) / (1 / 2 + s)) by (unfold A; cbn; field; lra).
  assert (Ha : a = 2 - (1 / 2) / (3 / 2 - s)) by (unfold a; cbn; field; lra).
  assert (I1 : / (1 / 2 + t) < / (1 / 2 + s)) by (apply Rinv_lt_contravar; [apply Rmult_lt_0_compat; lra|lra]).
  assert (I2 : / (3 / 2 - s) < / (3 / 2 - t)) by (apply Rinv_lt_contravar; [apply Rmult_lt_0_compat; lra|lra]).
  assert (I3 : / (1 / 2 + s) < 2) by (replace 2 with (/ (1 / 2)) by lra; apply Rinv_lt_contravar; lra).
  assert (I4 : / (3 / 2 - t) < 2) by (replace 2 with (/ (1 / 2)) by lra; apply Rinv_lt_contravar; lra).
  unfold Rdiv in HA, Ha, HA', Ha'.
  assert (P1 : 0 < a) by lra. assert (P2 : 0 < a') by lra. assert (P3 : 2 * A < A') by lra. assert (P4 : a' < 2 * a) by lra.
  assert (P5 : 0 < A) by lra. clear HA Ha HA' Ha' I1 I2 I3 I4. clearbody A a A' a'.
  assert (X : (A' - a') * (A + a) = (A - a) * (A' + a')).
  { assert (Y : 2 * (A' - a') / (A' + a') = 2 * (A - a) / (A + a)) by lra. apply (f_equal (fun z => z * ((A' + a') * (A + a)) / 2)) in Y.
    replace (2 * (A' - a') / (A' + a') * ((A' + a') * (A + a)) / 2) with ((A' - a') * (A + a)) in Y by (field; lra).
    replace (2 * (A - a) / (A + a) * ((A' + a') * (A + a)) / 2) with ((A - a) * (A' + a')) in Y by (field; lra). exact Y. }
  assert (A' * a = A * a') by lra. nra.
Qed.
Print Assumptions C112_units_refuted.
(* C112. The voxel at the cut counts half as block and half as background, however sharp the cut; denser ones count less as background. *)
Theorem C112_half :
  forall cut_coef c, background_weight cut_coef c c = 1 / 2
  /\ forall x, 0 < cut_coef -> (x < c -> background_weight cut_coef c x < 1 / 2) /\ (c < x -> 1 / 2 < background_weight cut_coef c x).
Proof.
  intros k c. assert (E : background_weight k c c = 1 / 2).
  { unfold background_weight. replace (- (k * (c - c))) with 0 by ring. rewrite exp_0. lra. }
  split; [exact E|]. intros x K. rewrite <- E. unfold background_weight. fold (sigmoid (k * (x - c))) (sigmoid (k * (c - c))). rewrite !sigmoid_same.
  split; intro L; apply sigmoid_incr; nra.
Qed.
Print Assumptions C112_half.
Theorem C112_score :
  forall cut_coef offset coef frac l, l <> [] -> 0 <= frac <= 1 ->
  exists c, In c l /\ let b x := background_weight cut_coef c x in
  let M := Rsum (map (fun x => b x * x) l) / Rsum (map b l) in let m := Rsum (map (fun x => (1 - b x) * x) l) / Rsum (map (fun x => 1 - b x) l) in
  block_score cut_coef offset coef frac l = Ok (1 / (1 + exp (- ((2 * (M - m) / (M + m) + offset) * coef)))).
Proof.
  intros k offset coef frac l N F. assert (1 <= length l)%nat as L by (destruct l; [congruence|cbn; lia]). pose proof (cut_index frac _ L F) as [K1 K2].
  unfold block_score, block_cut, kthvalue. rewrite (proj2 (Z.leb_le 1 _) K1), (proj2 (Z.leb_le _ _) K2). cbn [andb bind].
  set (c := nth _ (sort_up l) 0). exists c. split.
  { apply (Permutation_in _ (sort_perm l)). apply nth_In. rewrite (Permutation_length (sort_perm l)). lia. }
  cbv zeta. f_equal. unfold block_weights. rewrite map_map. unfold wmean. rewrite !mul_map.
  assert (W : forall x, Rsigmoid (k * (x - c)) = background_weight k c x) by (intro x; rewrite <- sigmoid_same; reflexivity).
  rewrite !(map_ext _ _ W). rewrite (map_ext _ (fun x => background_weight k c x * x)) by (intro; now rewrite W).
  rewrite (map_ext (fun x => (1 - Rsigmoid (k * (x - c))) * x) (fun x => (1 - background_weight k c x) * x)) by (intro; now rewrite W).
  rewrite (map_ext (fun x => 1 - Rsigmoid (k * (x - c))) (fun x => 1 - background_weight k c x)) by (intro; now rewrite W).
  rewrite <- sigmoid_same. reflexivity.
Qed.
Print Assumptions C112_score.

(* C112. The predicted class is the first of those with the largest probability; NaN counts as largest. *)
Theorem C112_class :
  forall probs, probs <> [] ->
  exists c p, xargmax probs = Ok c /\ nth_error probs c = Some p /\ (forall j q, nth_error probs j = Some q -> ~ under p q)
  /\ (forall j q, (j < c)%nat -> nth_error probs j = Some q -> under q p).
Proof.
  intros probs N. pose proof (best_spec probs) as B. unfold xargmax. destruct (xbest probs) as [[i b]|]; [|congruence]. destruct B as (B1 & B2 & B3).
  exists i, b. split; [reflexivity|]. split; [exact B1|]. split.
  - intros j q J U. apply xup_under in U. rewrite (B2 j q J) in U. discriminate.
  - intros j q L J. apply xup_under. now apply (B3 j q).
Qed.
Print Assumptions C112_class.
(* C112. Any strictly increasing function of the scores leads to the same class; softmax is one. *)
Theorem C112_softmax :
  forall l, l <> [] -> xargmax (Ladle.softmax (map Fin l)) = xargmax (map Fin l).
Proof.
  intros l N. destruct (soft_fin l N) as (m & _ & _ & -> & P). set (S := Rsum _) in *.
  destruct (best_map (fun x => exp (x - m) / S) l) as [E I].
  - intros x y _ _. assert (0 < / S) by now apply Rinv_0_lt_compat. unfold Rdiv. split; intro L.
    + apply Rmult_le_compat_r; [lra|]. destruct (Req_dec x y) as [->|D]; [lra|]. left. apply exp_increasing. lra.
    + destruct (Rle_lt_dec x y) as [|G]; [assumption|]. exfalso. assert (exp (y - m) < exp (x - m)) by (apply exp_increasing; lra). nra.
  - unfold xargmax. rewrite E. destruct (xbest (map Fin l)) as [[i b]|] eqn:Eb; [|reflexivity]. destruct (I i b eq_refl) as (r & -> & _). reflexivity.
Qed.
Print Assumptions C112_softmax.
Example C112_class_case : xargmax [Fin 1; Fin 3; Fin 3; Fin 2] = Ok 1%nat /\ xargmax [Fin 1; NaN; Fin 2] = Ok 1%nat.
Proof.
  unfold xargmax, xbest, xup, xle. cbn. split; [|reflexivity].
  destruct (Rleb_spec 2 3); [|lra]. cbn. destruct (Rleb_spec 3 3); [|lra]. cbn. destruct (Rleb_spec 3 1); [lra|]. reflexivity.
Qed.
(* C112. What is returned: the probabilities, the class, or the value of the class; without scatter batches whatever the class's x02probs makes of None. *)
Theorem C112_returned :
  forall x02probs c2f preds probs, x02probs preds = Ok probs -> probs <> [] ->
  int_answer x02probs true c2f preds = Ok probs
  /\ exists c, xargmax probs = Ok c /\ int_answer x02probs false None preds = Ok [Fin (INR c)] /\ forall f, int_answer x02probs false (Some f) preds = Ok [f c].
Proof.
  intros x c2f preds probs E N. unfold int_answer. rewrite E. cbn [bind]. split; [reflexivity|]. destruct (C112_class probs N) as (c & p & Ec & _).
  exists c. rewrite Ec. repeat split.
Qed.
Print Assumptions C112_returned.
