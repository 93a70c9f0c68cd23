(* Loss functions and material conversions (C56-C61, C76). *)
From Coq Require Import Lia Lra ZArith Permutation Ranalysis.
From Verif Require Import Base.RUtil Base.XR Base.Res Model.Utils Model.Loss Spec.LossSpec Proofs.UtilsP Proofs.LossP.
Open Scope R_scope.
Open Scope list_scope.

(* C56. Without a budget there is no budget term. *)
Theorem C56_no_budget : forall b steep cost, budget_coef None b steep cost = Fin 0.
Proof. reflexivity. Qed.
Print Assumptions C56_no_budget.
(* C56. The steep budget term: positive, strictly increasing, one at the budget, continuously differentiable, with positive slope. *)
Theorem C56_steep :
  forall t b, 0 < t -> 0 < b ->
  exists f f' : R -> R,
    (forall c, budget_coef (Some t) b true (Fin c) = Fin (f c)) /\
    (forall c, 0 < f c) /\ (forall c c', c < c' -> f c < f c') /\ f t = 1 /\
    (forall c, derivable_pt_lim f c (f' c)) /\ continuity f' /\ (forall c, 0 < f' c) /\
    (forall c, t <= c -> f c = 1 + b * (c - t) / (2 * t)).
Proof.
  intros t b Ht Hb. set (d := fun c => b / t * (c - t)).
  assert (Hd : forall c, b * (c - t) / t = d c) by (intros c; unfold d; field; lra).
  assert (Hk : 0 < b / t) by now apply Rdiv_lt_0_compat.
  exists (fun c => steep_term (d c)), (fun c => steep_slope (d c) * (b / t)).
  split; [intros c; rewrite steep_budget_eq by lra; now rewrite Hd|]. split; [intros; apply steep_pos|].
  split; [intros c c' H; apply steep_incr; unfold d; nra|]. split; [unfold d; rewrite Rminus_diag_eq, Rmult_0_r by reflexivity; apply steep_0|].
  assert (HD : forall c, derivable_pt_lim d c (b / t)).
  { intros c. assert (H : derivable_pt_lim d c (b / t * (1 - 0))); [|now rewrite Rminus_0_r, Rmult_1_r in H]. apply (derivable_pt_lim_scal (fun c => c - t) (b / t)).
    apply (derivable_pt_lim_minus id (fun _ => t)); [apply derivable_pt_lim_id|apply derivable_pt_lim_const]. }
  split; [|split; [|split]].
  - intros c. apply (derivable_pt_lim_comp d steep_term); [apply HD|apply steep_lim].
  - intros c. apply (continuity_pt_mult (fun c => steep_slope (d c)) (fun _ => b / t)); [|apply continuity_pt_const; now intros ? ?].
    apply (continuity_pt_comp d steep_slope); [|apply steep_cont]. apply derivable_continuous_pt. exists (b / t). apply HD.
  - intros c. apply Rmult_lt_0_compat; [|exact Hk]. unfold steep_slope. pose proof (sigmoid_pos ((d c - Rabs (d c)) / 2)). nra.
  - intros c Hc. unfold steep_term. destruct (Rle_dec (d c) 0) as [H|H].
    + assert (c = t) by (unfold d in H; nra). subst c. unfold d. rewrite Rminus_diag_eq, !Rmult_0_r, sigmoid_0 by reflexivity. unfold Rdiv. rewrite Rmult_0_l. lra.
    + rewrite <- (Hd c). field. lra.
Qed.
Print Assumptions C56_steep.
(* C56. The other budget term: the same, but only continuous at the budget. *)
Theorem C56_not_steep :
  forall t b, 0 < t -> 0 < b ->
  exists f : R -> R,
    (forall c, budget_coef (Some t) b false (Fin c) = Fin (f c)) /\
    (forall c, 0 < f c) /\ (forall c c', c < c' -> f c < f c') /\ f t = 1 /\ continuity f.
Proof.
  intros t b Ht Hb. exists (mild_term t b). split; [intros; apply mild_budget_eq; lra|].
  assert (Hr : forall x, 0 <= Rmax x 0 / t) by (intros x; apply Rmult_le_pos; [apply Rmax_r|left; now apply Rinv_0_lt_compat]).
  assert (Hk : 0 < b / t) by now apply Rdiv_lt_0_compat.
  split; [intros c; unfold mild_term; pose proof (sigmoid_pos (b * (c - t) / t)); specialize (Hr (c - t)); lra|]. split; [|split].
  - intros c c' H. unfold mild_term. assert (Hs : sigmoid (b * (c - t) / t) < sigmoid (b * (c' - t) / t)).
    { apply sigmoid_incr. replace (b * (c - t) / t) with (b / t * (c - t)) by (field; lra). replace (b * (c' - t) / t) with (b / t * (c' - t)) by (field; lra). nra. }
    assert (Hm : Rmax (c - t) 0 / t <= Rmax (c' - t) 0 / t). { apply Rmult_le_compat_r; [left; now apply Rinv_0_lt_compat|]. apply Rle_max_compat_r. lra. }
    lra.
  - unfold mild_term. rewrite Rminus_diag_eq by reflexivity. unfold Rdiv. rewrite Rmult_0_r, Rmult_0_l, sigmoid_0. unfold Rmax. destruct (Rle_dec 0 0); lra.
  - intros c. unfold mild_term. apply (continuity_pt_plus (fun c => 2 * sigmoid (b * (c - t) / t)) (fun c => Rmax (c - t) 0 / t)).
    + apply (continuity_pt_scal (fun c => sigmoid (b * (c - t) / t)) 2). apply (continuity_pt_comp (fun c => b * (c - t) / t) sigmoid); [|apply sigmoid_cont].
      apply derivable_continuous_pt. unfold Rdiv. reg.
    + apply (continuity_pt_mult (fun c => Rmax (c - t) 0) (fun _ => / t)); [|apply continuity_pt_const; now intros ? ?].
      assert (E : forall x, Rmax x 0 = (x + Rabs x) / 2) by (intros x; unfold Rmax, Rabs; destruct (Rle_dec x 0), (Rcase_abs x); lra).
      apply (continuity_pt_locally_ext (fun c => ((c - t) + Rabs (c - t)) / 2) _ 1); [lra|intros; now rewrite E|].
      apply (continuity_pt_mult (fun c => c - t + Rabs (c - t)) (fun _ => / 2)); [|apply continuity_pt_const; now intros ? ?].
      assert (C1 : continuity_pt (fun c => c - t) c) by (apply derivable_continuous_pt; reg).
      apply (continuity_pt_plus (fun c => c - t) (fun c => Rabs (c - t))); [exact C1|]. apply (continuity_pt_comp (fun c => c - t) Rabs); [exact C1|apply Rcontinuity_abs].
Qed.
Print Assumptions C56_not_steep.

(* C57. A sequence of evaluations: what the inference loss and the cost give each time; the results and the loss object afterwards *)
Fixpoint evaluate (target : option R) (b : R) (steep : bool) (evs : list (res xr * res xr)) (o : loss) : list (res xr) * loss :=
  match evs with
  | [] => ([], o)
  | (i, c) :: evs => let (r, o) := forward target b steep i c o in let (rs, o) := evaluate target b steep evs o in (r :: rs, o)
  end.
(* the first error that could be computed *)
Fixpoint first_error (evs : list (res xr * res xr)) : option xr :=
  match evs with [] => None | (Ok e, _) :: _ => Some e | (Err _, _) :: evs => first_error evs end.
Definition coefficient (given : option xr) (evs : list (res xr * res xr)) : option xr := match given with Some k => Some k | None => first_error evs end.
Lemma evaluate_coef target b steep evs : forall o, l_coef (snd (evaluate target b steep evs o)) = coefficient (l_coef o) evs.
Proof.
  unfold coefficient. induction evs as [|[i c] evs IH]; intros o; [cbn; now destruct (l_coef o)|]. cbn [evaluate]. destruct (forward target b steep i c o) as [r o1] eqn:E.
  specialize (IH o1). destruct (evaluate target b steep evs o1) as [rs o2]. cbn [snd] in *. rewrite IH. unfold forward in E.
  destruct i as [e|x]; [|injection E as <- <-; cbn; now destruct (l_coef o)]. destruct c as [c|x]; injection E as <- <-; cbn; now destruct (l_coef o).
Qed.
(* C57. The coefficient is the given one or the error of the first evaluated volume, after any sequence of evaluations, also when some of them raise;
   the loss of the next volume is its error plus the coefficient times the budget term, and the recorded parts are these two. *)
Theorem C57_coefficient :
  forall target b steep given evs err cost,
  let o := snd (evaluate target b steep evs (LossObj given None None)) in
  l_coef o = coefficient given evs /\
  exists k, coefficient given (evs ++ [(Ok err, Ok cost)]) = Some k /\
    forward target b steep (Ok err) (Ok cost) o =
      (Ok (xadd err (xmul (budget_coef target b steep cost) k)), LossObj (Some k) (Some err) (Some (xmul (budget_coef target b steep cost) k))).
Proof.
  intros target b steep given evs err cost o. pose proof (evaluate_coef target b steep evs (LossObj given None None)) as H. fold o in H. cbn [l_coef] in H. split; [exact H|].
  unfold forward. rewrite H. exists (match coefficient given evs with Some k => k | None => err end). split; [|reflexivity].
  unfold coefficient. destruct given; [reflexivity|]. clear. induction evs as [|[[e|x] c] evs IH]; cbn; auto.
Qed.
Print Assumptions C57_coefficient.
(* C57. Once there is a coefficient it never changes. *)
Theorem C57_fixed :
  forall target b steep k evs o, l_coef o = Some k -> l_coef (snd (evaluate target b steep evs o)) = Some k.
Proof. intros. rewrite evaluate_coef. unfold coefficient. now rewrite H. Qed.
Print Assumptions C57_fixed.
Example C57_case :
  let evs := [(Err (UserExn 0), Ok (Fin 1)); (Ok (Fin 3), Err (UserExn 1)); (Ok (Fin 5), Ok (Fin 2))] in
  l_coef (snd (evaluate (Some 2) 10 true evs (LossObj None None None))) = Some (Fin 3) /\
  (exists x, nth_error (fst (evaluate (Some 2) 10 true evs (LossObj None None None))) 2 = Some (Ok (Fin x)) /\ x = 8).
Proof.
  cbn [evaluate forward l_coef fst snd nth_error]. rewrite steep_budget_eq by lra. replace (10 * (2 - 2) / 2) with 0 by lra. rewrite steep_0. cbn. split; [reflexivity|]. eexists. split; [reflexivity|]. lra.
Qed.

(* ---- C58 ---- *)
Lemma dist_nonneg m t i : 0 <= dist m t i.
Proof. unfold dist. destruct m; apply (IZR_le 0); [apply Z.square_nonneg|apply Z.abs_nonneg]. Qed.
Lemma dist_zero m t i : dist m t i = 0 <-> t = i.
Proof.
  unfold dist. split; [|intros ->; rewrite Z.sub_diag; now destruct m]. intros H. destruct m; apply (eq_IZR _ 0) in H; [apply Z.mul_eq_0 in H|]; lia.
Qed.
Lemma dists_pos m t start n : (2 <= n)%nat -> 0 < Rsum (dists m t start n).
Proof.
  intros H. destruct n as [|[|n]]; try lia. unfold dists. cbn [seq map Rsum]. pose proof (dist_nonneg m t (start + Z.of_nat 0)). pose proof (dist_nonneg m t (start + Z.of_nat 1)).
  assert (0 <= Rsum (map (fun i => dist m t (start + Z.of_nat i)) (seq 2 n))) by (apply Rsum_nonneg; intros x Hx; apply in_map_iff in Hx as (i & <- & _); apply dist_nonneg).
  destruct (Req_dec (dist m t (start + Z.of_nat 0)) 0) as [E|E]; [|lra]. apply dist_zero in E. assert (dist m t (start + Z.of_nat 1) <> 0) by (rewrite dist_zero; lia). lra.
Qed.
(* C58. The loss for one target is the expected distance divided by the sum of distances, for any number of classes from two on. *)
Theorem C58_value :
  forall n p t start mse, (2 <= n)%nat -> length p = n ->
  integer_class_loss n [map Fin p] [t] start mse None RedMean = Ok (Scalar (Fin (dot (dists mse t start n) p / Rsum (dists mse t start n)))).
Proof.
  intros n p t start mse Hn Hp. unfold integer_class_loss. pose proof (dists_pos mse t start n Hn) as HD. set (D := dists mse t start n) in *.
  assert (Eb : bcast RuntimeError Z.sub [t] (map (fun i => (start + Z.of_nat i)%Z) (seq 0 n)) = Ok (map (fun i => (t - (start + Z.of_nat i))%Z) (seq 0 n))).
  { unfold bcast. rewrite map_length, seq_length. cbn [length]. rewrite (proj2 (Nat.eqb_neq 1 n)) by lia. now rewrite map_map. }
  rewrite Eb. cbn [bind]. rewrite !map_map.
  assert (ED : map (fun x => Fin (IZR (if mse then (t - (start + Z.of_nat x)) * (t - (start + Z.of_nat x)) else Z.abs (t - (start + Z.of_nat x))))) (seq 0 n) = map Fin D).
  { unfold D, dists. rewrite map_map. apply map_ext. intros i. unfold dist. now destruct mse. }
  rewrite ED, xtotal_fin.
  assert (ED2 : map (fun x => xdiv (Fin (IZR (if mse then (t - (start + Z.of_nat x)) * (t - (start + Z.of_nat x)) else Z.abs (t - (start + Z.of_nat x))))) (Fin (Rsum D))) (seq 0 n) = map (fun d => Fin (d / Rsum D)) D).
  { unfold D at 3, dists. rewrite map_map. apply map_ext. intros i. rewrite xdiv_fin by lra. unfold dist. now destruct mse. }
  rewrite ED2. cbn [mapM bind]. 
  assert (HL : length D = n) by (unfold D, dists; now rewrite map_length, seq_length).
  unfold bcast at 1. rewrite !map_length, HL, Hp, Nat.eqb_refl. cbn [bind map concat app]. do 2 f_equal. unfold xmean. cbn [length xtotal fold_right INR].
  assert (Es : forall d q, length d = length q -> xtotal (map (fun a => xmul (fst a) (snd a)) (combine (map (fun x => Fin (x / Rsum D)) d) (map Fin q))) = Fin (dot d q / Rsum D)).
  { clear - HD. unfold dot. induction d as [|x d IH]; intros [|y q] H; try discriminate; cbn [map combine xtotal fold_right Rsum].
    - f_equal. lra.
    - fold (xtotal (map (fun a => xmul (fst a) (snd a)) (combine (map (fun x => Fin (x / Rsum D)) d) (map Fin q)))). rewrite IH by (injection H; auto). cbn [fst snd xmul xadd]. f_equal. field. lra. }
  rewrite Es by congruence. cbn [xadd]. rewrite xdiv_fin by lra. f_equal. field. lra.
Qed.
Print Assumptions C58_value.
(* C58. The same for any number of predictions for that target, with or without a weight, before and after reduction; another name of the
   reduction is refused. *)
Theorem C58_batch :
  forall n ps t start mse (w : option R), (2 <= n)%nat -> ps <> [] -> Forall (fun p => length p = n) ps ->
  let loss := fun p => dot (dists mse t start n) p / Rsum (dists mse t start n) * match w with Some w => w | None => 1 end in
  let run := integer_class_loss n (map (map Fin) ps) [t] start mse (match w with Some w => Some [Fin w] | None => None end) in
  run RedNone = Ok (Rows (map (fun p => [Fin (loss p)]) ps)) /\ run RedSum = Ok (Scalar (Fin (Rsum (map loss ps)))) /\
  run RedMean = Ok (Scalar (Fin (Rsum (map loss ps) / INR (length ps)))) /\ run RedOther = Err ValueError.
Proof.
  intros n ps t start mse w Hn Hne HP. pose proof (dists_pos mse t start n Hn) as HD. set (D := dists mse t start n) in *. cbn zeta.
  assert (HL : length D = n) by (unfold D, dists; now rewrite map_length, seq_length).
  set (loss := fun p => dot D p / Rsum D * match w with Some w => w | None => 1 end).
  assert (G : forall red, integer_class_loss n (map (map Fin) ps) [t] start mse (match w with Some w => Some [Fin w] | None => None end) red =
    match red with RedMean => Ok (Scalar (xmean (concat (map (fun p => [Fin (loss p)]) ps)))) | RedSum => Ok (Scalar (xtotal (concat (map (fun p => [Fin (loss p)]) ps)))) | RedNone => Ok (Rows (map (fun p => [Fin (loss p)]) ps)) | RedOther => Err ValueError end).
  { intros red. unfold integer_class_loss.
    assert (Eb : bcast RuntimeError Z.sub [t] (map (fun i => (start + Z.of_nat i)%Z) (seq 0 n)) = Ok (map (fun i => (t - (start + Z.of_nat i))%Z) (seq 0 n))).
    { unfold bcast. rewrite map_length, seq_length. cbn [length]. rewrite (proj2 (Nat.eqb_neq 1 n)) by lia. now rewrite map_map. }
    rewrite Eb. cbn [bind]. rewrite !map_map.
    assert (ED : map (fun x => Fin (IZR (if mse then (t - (start + Z.of_nat x)) * (t - (start + Z.of_nat x)) else Z.abs (t - (start + Z.of_nat x))))) (seq 0 n) = map Fin D).
    { unfold D, dists. rewrite map_map. apply map_ext. intros i. unfold dist. now destruct mse. }
    rewrite ED, xtotal_fin.
    assert (ED2 : map (fun x => xdiv (Fin (IZR (if mse then (t - (start + Z.of_nat x)) * (t - (start + Z.of_nat x)) else Z.abs (t - (start + Z.of_nat x))))) (Fin (Rsum D))) (seq 0 n) = map (fun d => Fin (d / Rsum D)) D).
    { unfold D at 3, dists. rewrite map_map. apply map_ext. intros i. rewrite xdiv_fin by lra. unfold dist. now destruct mse. }
    rewrite ED2.
    assert (Es : forall d q, length d = length q -> xtotal (map (fun a => xmul (fst a) (snd a)) (combine (map (fun x => Fin (x / Rsum D)) d) (map Fin q))) = Fin (dot d q / Rsum D)).
    { clear - HD. unfold dot. induction d as [|x d IH]; intros [|y q] H; try discriminate; cbn [map combine xtotal fold_right Rsum].
      - f_equal. lra.
      - fold (xtotal (map (fun a => xmul (fst a) (snd a)) (combine (map (fun x => Fin (x / Rsum D)) d) (map Fin q)))). rewrite IH by (injection H; auto). cbn [fst snd xmul xadd]. f_equal. field. lra. }
    assert (ER : exists rows, mapM (fun p => bcast RuntimeError xmul (map (fun d => Fin (d / Rsum D)) D) p) (map (map Fin) ps) = Ok rows /\ map (fun r => [xtotal r]) rows = map (fun p => [Fin (dot D p / Rsum D)]) ps).
    { clear Hne. induction HP as [|p ps Hp _ IH]; [exists []; split; reflexivity|]. destruct IH as (rows & IH1 & IH2). cbn [map mapM]. unfold bcast at 1. rewrite !map_length, HL, Hp, Nat.eqb_refl. cbn [bind]. rewrite IH1. cbn [bind].
      eexists. split; [reflexivity|]. cbn [map]. rewrite IH2, Es by congruence. reflexivity. }
    destruct ER as (rows & ER1 & ER2). rewrite ER1. cbn [bind]. rewrite ER2.
    assert (EW : match (match w with Some w => Some [Fin w] | None => None end) with None => Ok (map (fun p => [Fin (dot D p / Rsum D)]) ps)
                 | Some w0 => mapM (fun r => bcast RuntimeError xmul r w0) (map (fun p => [Fin (dot D p / Rsum D)]) ps) end = Ok (map (fun p => [Fin (loss p)]) ps)).
    { unfold loss. destruct w as [w|].
      - clear - ps. induction ps as [|p ps IH]; [reflexivity|]. cbn [map mapM]. unfold bcast at 1. cbn [length Nat.eqb combine map fst snd xmul bind]. rewrite IH. reflexivity.
      - f_equal. apply map_ext. intros p. do 2 f_equal. ring. }
    rewrite EW. cbn [bind]. reflexivity. }
  assert (EC : concat (map (fun p => [Fin (loss p)]) ps) = map Fin (map loss ps)) by (clear; induction ps as [|p ps IH]; [reflexivity|]; cbn [map concat app]; now rewrite IH).
  rewrite !G, EC, xtotal_fin. unfold xmean. rewrite xtotal_fin, !map_length. rewrite xdiv_fin by (apply not_0_INR; destruct ps; [congruence|cbn; lia]). repeat split; reflexivity.
Qed.
Print Assumptions C58_batch.
Example C58_batch_case : Forall (fun p => length p = 2%nat) [[1 / 2; 1 / 2]; [0; 1]]. Proof. repeat constructor. Qed.
(* probabilities, up to normalisation *)
Definition shares (p : list R) : Prop := Forall (fun x => 0 <= x) p /\ Rsum p = 1.
Definition icl (n : nat) (p : list R) (t start : Z) (mse : bool) (x : R) : Prop :=
  integer_class_loss n [map Fin p] [t] start mse None RedMean = Ok (Scalar (Fin x)).
Lemma dot_cons x d y p : dot (x :: d) (y :: p) = x * y + dot d p. Proof. reflexivity. Qed.
Lemma dot_nonneg d p : Forall (fun x => 0 <= x) d -> Forall (fun x => 0 <= x) p -> 0 <= dot d p.
Proof. intros Hd. revert p. induction Hd as [|x d H Hd IH]; intros p Hp; [unfold dot; cbn; lra|]. destruct Hp as [|y p Hy Hp]; [unfold dot; cbn; lra|]. rewrite dot_cons. specialize (IH p Hp). nra. Qed.
Lemma dot_le d p : length d = length p -> Forall (fun x => 0 <= x) d -> Forall (fun x => 0 <= x) p -> Rsum p <= 1 -> dot d p <= Rsum d.
Proof.
  intros HL Hd. revert p HL. induction Hd as [|x d H Hd IH]; intros p HL Hp Hs; [destruct p; [unfold dot; cbn; lra|discriminate]|]. destruct Hp as [|y p Hy Hp]; [discriminate|].
  rewrite dot_cons. cbn [Rsum] in *. assert (0 <= Rsum p) by (apply Rsum_nonneg; now apply Forall_forall). specialize (IH p ltac:(injection HL; auto) Hp ltac:(lra)). nra.
Qed.
Lemma dot_zero d p : length d = length p -> Forall (fun x => 0 <= x) d -> Forall (fun x => 0 <= x) p -> dot d p = 0 <-> forall i, nth i d 0 <> 0 -> nth i p 0 = 0.
Proof.
  intros HL Hd. revert p HL. induction Hd as [|x d H Hd IH]; intros p HL Hp; [destruct p; [|discriminate]; split; [intros _ [|i] Hi; reflexivity|reflexivity]|]. destruct Hp as [|y p Hy Hp]; [discriminate|].
  rewrite dot_cons. pose proof (dot_nonneg d p Hd Hp) as HN. specialize (IH p ltac:(injection HL; auto) Hp). assert (0 <= x * y) by now apply Rmult_le_pos. split.
  - intros E. assert (E1 : x * y = 0) by lra. assert (E2 : dot d p = 0) by lra. intros [|i] Hi; cbn in *; [apply Rmult_integral in E1 as [E1|E1]; [contradiction|exact E1]|now apply (proj1 IH E2)].
  - intros E. assert (E1 : x * y = 0) by (destruct (Req_dec x 0) as [->|Hx]; [ring|specialize (E 0%nat Hx); cbn in E; rewrite E; ring]). rewrite E1, (proj2 IH); [ring|]. intros i Hi. exact (E (S i) Hi).
Qed.
Lemma dists_nonneg m t start n : Forall (fun x => 0 <= x) (dists m t start n).
Proof. apply Forall_forall. intros x Hx. apply in_map_iff in Hx as (i & <- & _). apply dist_nonneg. Qed.
Lemma dists_len m t start n : length (dists m t start n) = n.
Proof. unfold dists. now rewrite map_length, seq_length. Qed.
Lemma nth_dists m t start n i : (i < n)%nat -> nth i (dists m t start n) 0 = dist m t (start + Z.of_nat i).
Proof. intros H. unfold dists. rewrite (nth_indep _ 0 (dist m t (start + Z.of_nat 0))) by (now rewrite map_length, seq_length). rewrite (map_nth (fun i => dist m t (start + Z.of_nat i))), seq_nth by exact H. reflexivity. Qed.
(* C58. The loss of probabilities lies in [0, 1], and is zero exactly if every integer other than the target has probability zero. *)
Theorem C58_range :
  forall n p t start mse, (2 <= n)%nat -> length p = n -> shares p ->
  exists x, icl n p t start mse x /\ 0 <= x <= 1 /\
    (x = 0 <-> forall i, (i < n)%nat -> (start + Z.of_nat i)%Z <> t -> nth i p 0 = 0).
Proof.
  intros n p t start mse Hn Hp [HF HS]. eexists. split; [apply C58_value; assumption|]. pose proof (dists_pos mse t start n Hn) as HD.
  assert (HL : length (dists mse t start n) = length p) by (rewrite dists_len; auto).
  pose proof (dot_nonneg _ _ (dists_nonneg mse t start n) HF) as H0. pose proof (dot_le _ _ HL (dists_nonneg mse t start n) HF ltac:(lra)) as H1.
  split; [split|].
  - apply Rmult_le_pos; [exact H0|left; now apply Rinv_0_lt_compat].
  - apply (Rmult_le_reg_r (Rsum (dists mse t start n))); [exact HD|]. unfold Rdiv. rewrite Rmult_assoc, Rinv_l by lra. lra.
  - assert (HZ : dot (dists mse t start n) p / Rsum (dists mse t start n) = 0 <-> dot (dists mse t start n) p = 0).
    { split; [|intros ->; unfold Rdiv; ring]. intros E. unfold Rdiv in E. apply Rmult_integral in E as [E|E]; [exact E|]. pose proof (Rinv_0_lt_compat _ HD). lra. }
    rewrite HZ, (dot_zero _ _ HL (dists_nonneg mse t start n) HF). split.
    + intros H i Hi Ht. apply H. rewrite nth_dists by exact Hi. rewrite dist_zero. congruence.
    + intros H i Hi. destruct (Nat.lt_ge_cases i n) as [L|L]; [|apply nth_overflow; lia]. apply H; [exact L|]. rewrite nth_dists, dist_zero in Hi by exact L. congruence.
Qed.
Print Assumptions C58_range.
(* e of the probability is moved from integer number j to integer number i *)
Definition moved (p : list R) (i j : nat) (e : R) : list R :=
  map (fun k => nth k p 0 + (if Nat.eqb k i then e else 0) - (if Nat.eqb k j then e else 0)) (seq 0 (length p)).
Lemma dot_seq (f : nat -> R) n p : length p = n -> dot (map f (seq 0 n)) p = Rsum (map (fun k => f k * nth k p 0) (seq 0 n)).
Proof.
  intros <-. enough (H : forall a, dot (map f (seq a (length p))) p = Rsum (map (fun k => f k * nth (k - a) p 0) (seq a (length p)))).
  { rewrite H. apply Rsum_map_ext. intros k _. now rewrite Nat.sub_0_r. }
  induction p as [|y p IH]; intros a; [reflexivity|]. cbn [length seq map]. rewrite dot_cons, IH. cbn [Rsum]. rewrite Nat.sub_diag. cbn [nth]. f_equal. apply Rsum_map_ext.
  intros k Hk. apply in_seq in Hk. replace (k - a)%nat with (S (k - S a)) by lia. reflexivity.
Qed.
Lemma sum_spike (f : nat -> R) e i n a : (a <= i < a + n)%nat -> Rsum (map (fun k => f k * (if Nat.eqb k i then e else 0)) (seq a n)) = f i * e.
Proof.
  revert a. induction n as [|n IH]; intros a H; [lia|]. cbn [seq map Rsum]. destruct (Nat.eqb_spec a i) as [->|N].
  - replace (Rsum _) with 0; [ring|]. symmetry. rewrite (Rsum_map_ext _ (fun _ => 0 * 0)); [rewrite Rsum_map_mult; ring|]. intros k Hk. apply in_seq in Hk. rewrite (proj2 (Nat.eqb_neq k i)) by lia. ring.
  - rewrite IH by lia. ring.
Qed.
(* C58. Moving probability from a farther integer to a nearer one does not increase the loss. *)
Theorem C58_move :
  forall n p t start mse i j e x x', (2 <= n)%nat -> length p = n -> (i < n)%nat -> (j < n)%nat -> 0 <= e ->
  (Z.abs (t - (start + Z.of_nat i)) <= Z.abs (t - (start + Z.of_nat j)))%Z ->
  icl n p t start mse x -> icl n (moved p i j e) t start mse x' -> x' <= x.
Proof.
  intros n p t start mse i j e x x' Hn Hp Hi Hj He Hd H H'. unfold icl in *.
  assert (Hp' : length (moved p i j e) = n) by (unfold moved; now rewrite map_length, seq_length).
  rewrite C58_value in H, H' by assumption. injection H as <-. injection H' as <-. pose proof (dists_pos mse t start n Hn) as HD.
  apply Rmult_le_compat_r; [left; now apply Rinv_0_lt_compat|]. set (f := fun i => dist mse t (start + Z.of_nat i)). change (dists mse t start n) with (map f (seq 0 n)). rewrite !dot_seq by assumption.
  assert (HE : Rsum (map (fun k => f k * nth k (moved p i j e) 0) (seq 0 n)) = Rsum (map (fun k => f k * nth k p 0) (seq 0 n)) + f i * e - f j * e).
  { rewrite <- (sum_spike f e i n 0), <- (sum_spike f e j n 0) by lia. rewrite <- Rsum_map_plus, <- Rsum_map_minus. apply Rsum_map_ext. intros k Hk. apply in_seq in Hk. unfold moved.
    rewrite (nth_indep _ 0 (nth 0 p 0 + (if Nat.eqb 0 i then e else 0) - (if Nat.eqb 0 j then e else 0))) by (rewrite map_length, seq_length; lia).
    rewrite (map_nth (fun k => nth k p 0 + (if Nat.eqb k i then e else 0) - (if Nat.eqb k j then e else 0))), seq_nth by lia. cbn [plus]. ring. }
  change (Rsum (map (fun k => f k * nth k (moved p i j e) 0) (seq 0 n)) <= Rsum (map (fun k => f k * nth k p 0) (seq 0 n))). rewrite HE.
  assert (Hf : f i <= f j). { unfold f, dist. destruct mse; apply IZR_le; [|exact Hd]. rewrite <- Z.abs_square, <- (Z.abs_square (t - (start + Z.of_nat j))). apply Z.mul_le_mono_nonneg; lia. }
  nra.
Qed.
Print Assumptions C58_move.
Example C58_case : shares [/ 2; / 4; / 4] /\ icl 3 [/ 2; / 4; / 4] 1 0 false (3 / 8).
Proof.
  split; [split; [repeat constructor; lra|cbn; lra]|]. unfold icl. rewrite C58_value by (cbn; lia). do 3 f_equal. unfold dot, dists, dist. cbn. lra.
Qed.

(* C76 is false: with more than one row the targets, given one for each row as documented, are paired with the integers instead of the rows:
   two rows of certain and right predictions have a loss of 1/2 each (taken alone, 0), and with three classes the function raises. *)
Theorem C76_rows_refuted :
  integer_class_loss 2 [[Fin 0; Fin 1]; [Fin 1; Fin 0]] [1; 0]%Z 0 false None RedNone = Ok (Rows [[Fin (1 / 2)]; [Fin (1 / 2)]]) /\
  integer_class_loss 2 [[Fin 0; Fin 1]] [1]%Z 0 false None RedNone = Ok (Rows [[Fin 0]]) /\
  integer_class_loss 2 [[Fin 1; Fin 0]] [0]%Z 0 false None RedNone = Ok (Rows [[Fin 0]]) /\
  integer_class_loss 3 [[Fin 0; Fin 1; Fin 0]; [Fin 1; Fin 0; Fin 0]] [1; 0]%Z 0 false None RedNone = Err RuntimeError.
Proof.
  unfold integer_class_loss, bcast. cbn. repeat (destruct (Req_EM_T _ _) as [?|?]; [exfalso; lra|]). cbn [xadd xmul].
  assert (K : forall a b, a = b -> [Fin a] = [Fin b]) by (intros; subst; reflexivity).
  split; [|split; [|split; [|reflexivity]]]; do 2 f_equal; repeat (apply f_equal2; [apply K; lra|]); try reflexivity; f_equal; apply K; lra.
Qed.
Print Assumptions C76_rows_refuted.

(* C59. If no class number equals a larger X0 of the volume, the targets are the classes of the nearest known X0s, and the loss is
   the mean of minus the log-probabilities of these classes. *)
Theorem C59_targets :
  forall x02id vals, x02id <> [] -> NoDup (map fst x02id) ->
  (forall x y c, In x vals -> In y vals -> nearest_class x02id x c -> IZR c = y -> y <= x) ->
  exists cs, relabel x02id vals = Ok (map IZR cs) /\ map to_long (map IZR cs) = cs /\ Forall2 (nearest_class x02id) vals cs.
Proof.
  intros d vals Hd N HC.
  assert (Hf : forall x, class_of d x = Ok (match class_of d x with Ok c => c | Err _ => 0%Z end) /\ nearest_class d x (match class_of d x with Ok c => c | Err _ => 0%Z end)).
  { intros x. destruct (class_of_nearest d x Hd N) as (c & -> & H). auto. }
  set (f := fun x => match class_of d x with Ok c => c | Err _ => 0%Z end) in *.
  exists (map f vals). split; [|split].
  - unfold relabel. rewrite map_map. rewrite <- (map_id vals) at 2. apply relabel_step.
    + intros x _. apply Hf.
    + intros x y Hx Hy E. apply (HC x y (f x) Hx Hy); [apply Hf|exact E].
    + apply uniqueR_sorted.
    + intros u. apply uniqueR_in.
    + intros x Hx. left. split; [now apply uniqueR_in|reflexivity].
  - rewrite map_map. rewrite <- (map_id (map f vals)) at 2. apply map_ext. intros; apply long_int.
  - clear - Hf. induction vals as [|x l IH]; constructor; [apply Hf|exact IH].
Qed.
Print Assumptions C59_targets.
Theorem C59_voxel_loss :
  forall x02id vals cols, x02id <> [] -> NoDup (map fst x02id) -> vals <> [] -> length cols = length vals ->
  (forall x y c, In x vals -> In y vals -> nearest_class x02id x c -> IZR c = y -> y <= x) ->
  (forall k c, In (k, c) x02id -> (0 <= c)%Z /\ Forall (fun col => (Z.to_nat c < length col)%nat) cols) ->
  exists cs, Forall2 (nearest_class x02id) vals cs /\
    voxel_class_loss x02id cols vals = Ok (Fin (Rsum (map (fun p => - nth (Z.to_nat (snd p)) (fst p) 0) (combine cols cs)) / INR (length vals))).
Proof.
  intros d vals cols Hd N Hv HL HC Hk. destruct (C59_targets d vals Hd N HC) as (cs & E1 & E2 & E3). exists cs. split; [exact E3|].
  unfold voxel_class_loss. rewrite E1. cbn [bind]. rewrite E2. unfold nll_loss. assert (HLc : length vals = length cs) by (clear - E3; induction E3; cbn; congruence).
  rewrite (proj2 (Nat.eqb_eq _ _)) by congruence.
  assert (Hm : mapM (fun p => pick (fst p) (snd p)) (combine cols cs) = Ok (map (fun p => nth (Z.to_nat (snd p)) (fst p) 0) (combine cols cs))).
  { assert (Hin : forall p, In p (combine cols cs) -> pick (fst p) (snd p) = Ok (nth (Z.to_nat (snd p)) (fst p) 0)).
    { intros [col c] Hp. cbn [fst snd]. pose proof (in_combine_l _ _ _ _ Hp) as Hl. pose proof (in_combine_r _ _ _ _ Hp) as Hr.
      assert (exists x, nearest_class d x c) as (x & k & Hkc & _). { clear - E3 Hr. induction E3 as [|x c' l l' H F IH]; [destruct Hr|]. destruct Hr as [->|Hr]; eauto. }
      destruct (Hk k c Hkc) as [H0 HF]. rewrite Forall_forall in HF. specialize (HF col Hl). unfold pick. rewrite (proj2 (Z.ltb_ge c 0)) by lia.
      now rewrite (nth_error_nth' col 0 HF). }
    revert Hin. generalize (combine cols cs). induction l as [|p l IH]; intros Hin; [reflexivity|]. cbn [mapM]. rewrite Hin by (left; reflexivity). cbn [bind].
    rewrite IH by (intros; apply Hin; right; assumption). reflexivity. }
  rewrite Hm. cbn [bind]. rewrite map_map. unfold xmean. rewrite map_length, combine_length, HL, <- HLc, Nat.min_id.
  rewrite <- (map_map (fun p => - nth (Z.to_nat (snd p)) (fst p) 0) Fin), xtotal_fin, xdiv_fin; [reflexivity|]. apply not_0_INR. destruct vals; [congruence|discriminate].
Qed.
Print Assumptions C59_voxel_loss.
(* C59. Converting targets outside of the loss has no such condition. *)
Theorem C59_conversion :
  forall x02id arr, x02id <> [] -> NoDup (map fst x02id) ->
  exists cs, x0targs_to_classtargs arr x02id = Ok (arr, cs) /\ Forall2 (nearest_class x02id) arr cs.
Proof.
  intros d arr Hd N. set (f := fun x => match class_of d x with Ok c => c | Err _ => 0%Z end).
  assert (Hf : forall x, class_of d x = Ok (f x) /\ nearest_class d x (f x)) by (intros x; unfold f; destruct (class_of_nearest d x Hd N) as (c & -> & H); auto).
  exists (map f arr). split; [|clear - Hf; induction arr as [|x l IH]; constructor; [apply Hf|exact IH]].
  unfold x0targs_to_classtargs. apply (fill_all Rltb Reqb Reqb_true uniqueR_in (class_of d) f 0%Z). intros a _. apply Hf.
Qed.
Print Assumptions C59_conversion.
(* C59. Without classes both conversions raise, unless there is nothing to convert. *)
Theorem C59_no_classes :
  forall arr, (arr <> [] -> x0targs_to_classtargs arr [] = Err ValueError /\ relabel [] arr = Err ValueError) /\
  x0targs_to_classtargs [] [] = Ok ([], []) /\ relabel [] [] = Ok [].
Proof.
  intros arr. split; [|split; reflexivity]. intros H. unfold x0targs_to_classtargs, relabel. destruct arr as [|x arr]; [congruence|]. pose proof (proj2 (uniqueR_in (x :: arr) x) (or_introl eq_refl)) as HI.
  destruct (unique Rltb (x :: arr)) as [|y u]; [destruct HI|]. split; reflexivity.
Qed.
Print Assumptions C59_no_classes.
(* C59 is false: X0s of 1/2 (class 1) and 1 (class 0): the voxels with X0 1/2 become 1 and then 0. *)
Theorem C59_collision_refuted :
  exists x02id vals cs, x02id <> [] /\ NoDup (map fst x02id) /\ relabel x02id vals = Ok (map IZR cs) /\
    vals = [1 / 2; 1] /\ cs = [0; 0]%Z /\ nearest_class x02id (1 / 2) 1 /\ ~ nearest_class x02id (1 / 2) 0.
Proof.
  exists [(1 / 2, 1%Z); (1, 0%Z)], [1 / 2; 1], [0; 0]%Z. split; [discriminate|]. split; [constructor; [cbn; intros [H|[]]; lra|repeat constructor; auto]|].
  assert (Hc : forall i, class_of [(1 / 2, 1%Z); (1, 0%Z)] i = Ok (if Rltb (Rabs (1 - i)) (Rabs (1 / 2 - i)) then 0%Z else 1%Z)).
  { intros i. unfold class_of. cbn [nearest map fst closer bind dget]. destruct (Rltb _ _).
    - destruct (Reqb_spec (1 / 2) 1); [lra|]. destruct (Reqb_spec 1 1); [reflexivity|lra].
    - destruct (Reqb_spec (1 / 2) (1 / 2)); [reflexivity|lra]. }
  split; [|split; [reflexivity|split; [reflexivity|split]]].
  - unfold relabel. cbn [unique fold_right uins]. destruct (Rltb_spec (1 / 2) 1); [|lra]. cbn [foldM]. rewrite !Hc. cbn [bind].
    destruct (Rltb_spec (Rabs (1 - 1 / 2)) (Rabs (1 / 2 - 1 / 2))) as [H|H]; [rewrite !Rabs_right in H by lra; lra|]. cbn [bind].
    destruct (Rltb_spec (Rabs (1 - 1)) (Rabs (1 / 2 - 1))) as [H'|H']; [|rewrite (Rabs_right (1 - 1)), Rabs_left in H' by lra; lra].
    unfold put_where. cbn [combine map fst snd bind]. destruct (Reqb_spec (1 / 2) (1 / 2)); [|lra]. destruct (Reqb_spec 1 (1 / 2)); [lra|]. cbn [map combine fst snd].
    destruct (Reqb_spec 1 1); [|lra]. reflexivity.
  - exists (1 / 2). split; [left; reflexivity|]. intros k' c' _. rewrite Rminus_diag_eq, Rabs_R0 by reflexivity. apply Rabs_pos.
  - intros (k & Hk & Hm). destruct Hk as [E|[E|[]]]; [discriminate E|]; injection E as <-. specialize (Hm (1 / 2) 1%Z (or_introl eq_refl)). rewrite (Rabs_right (1 - 1 / 2)), (Rabs_right (1 / 2 - 1 / 2)) in Hm by lra. lra.
Qed.
Print Assumptions C59_collision_refuted.

(* C60. Mass fractions: 1/rho is the mean of the 1/rho_i, and 1/(X0 rho) the mean of the 1/(X0_i rho_i), weighted by mass. *)
Theorem C60_mass :
  forall m, sound m ->
  exists x0 rho, x0_from_mixture (x0s m) (rhos m) (Some (amounts m)) None = Ok (Fin x0, Fin rho) /\ 0 < x0 /\ 0 < rho /\
    1 / rho = total_of (fun p => p_amount p / p_rho p) m / total_of p_amount m /\
    1 / (x0 * rho) = total_of (fun p => p_amount p / (p_x0 p * p_rho p)) m / total_of p_amount m.
Proof.
  intros m H. exists (mass_x0 m), (mass_rho m). split; [now apply mass_eq|]. destruct H as [Hn F]. rewrite Forall_forall in F. unfold mass_x0, mass_rho.
  assert (HW : 0 < total_of p_amount m) by (apply sum_pos; [assumption|]; apply Forall_forall; intros p Hp; apply F, Hp).
  assert (HA : 0 < total_of (fun p => p_amount p / (p_x0 p * p_rho p)) m).
  { apply sum_pos; [assumption|]. apply Forall_forall. intros p Hp. destruct (F p Hp) as (A & B & C). apply Rdiv_lt_0_compat; [assumption|now apply Rmult_lt_0_compat]. }
  assert (HB : 0 < total_of (fun p => p_amount p / p_rho p) m).
  { apply sum_pos; [assumption|]. apply Forall_forall. intros p Hp. destruct (F p Hp) as (A & B & C). now apply Rdiv_lt_0_compat. }
  split; [now apply Rdiv_lt_0_compat|]. split; [now apply Rdiv_lt_0_compat|]. split; field; lra.
Qed.
Print Assumptions C60_mass.
(* C60. Volume fractions: 1/X0 = sum v_i / X0_i and rho = sum v_i rho_i (for fractions that sum to one). *)
Theorem C60_volume :
  forall m, sound m ->
  exists x0 rho, x0_from_mixture (x0s m) (rhos m) None (Some (amounts m)) = Ok (Fin x0, Fin rho) /\ 0 < x0 /\ 0 < rho /\
    1 / x0 = total_of (fun p => p_amount p / p_x0 p) m / total_of p_amount m /\
    rho = total_of (fun p => p_amount p * p_rho p) m / total_of p_amount m.
Proof.
  intros m H. exists (mass_x0 (by_mass m)), (mass_rho (by_mass m)). rewrite volume_eq_mass. split; [now apply mass_eq, by_mass_sound|]. rewrite volume_x0, volume_rho by assumption.
  destruct H as [Hn F]. rewrite Forall_forall in F.
  assert (HW : 0 < total_of p_amount m) by (apply sum_pos; [assumption|]; apply Forall_forall; intros p Hp; apply F, Hp).
  assert (HA : 0 < total_of (fun p => p_amount p / p_x0 p) m) by (apply sum_pos; [assumption|]; apply Forall_forall; intros p Hp; destruct (F p Hp) as (A & B & C); now apply Rdiv_lt_0_compat).
  assert (HB : 0 < total_of (fun p => p_amount p * p_rho p) m) by (apply sum_pos; [assumption|]; apply Forall_forall; intros p Hp; destruct (F p Hp) as (A & B & C); now apply Rmult_lt_0_compat).
  split; [now apply Rdiv_lt_0_compat|]. split; [now apply Rdiv_lt_0_compat|]. split; [field; lra|reflexivity].
Qed.
Print Assumptions C60_volume.
(* C60. Both agree when they describe the same mixture: the mass of a component is its density times its volume, in any unit. *)
Theorem C60_agree :
  forall m m' k, sound m -> 0 < k -> m' = map (fun p => Part (p_x0 p) (p_rho p) (k * (p_rho p * p_amount p))) m ->
  x0_from_mixture (x0s m) (rhos m) None (Some (amounts m)) = x0_from_mixture (x0s m') (rhos m') (Some (amounts m')) None.
Proof.
  intros m m' k H Hk ->. assert (HS : sound (map (fun p => Part (p_x0 p) (p_rho p) (k * (p_rho p * p_amount p))) m)).
  { destruct H as [Hn F]. split; [destruct m; [congruence|discriminate]|]. apply Forall_forall. intros p Hp. apply in_map_iff in Hp as (q & <- & Hq). rewrite Forall_forall in F. destruct (F q Hq) as (A & B & C).
    cbn. repeat split; try assumption. apply Rmult_lt_0_compat; [assumption|]. now apply Rmult_lt_0_compat. }
  rewrite (mass_eq _ HS), volume_eq_mass, (mass_eq _ (by_mass_sound m H)). unfold mass_x0, mass_rho, by_mass, total_of. rewrite !map_map. cbn [p_x0 p_rho p_amount].
  assert (HI : forall f, Rsum (map (fun x => k * (p_rho x * p_amount x) / f x) m) = k * Rsum (map (fun x => p_rho x * p_amount x / f x) m)).
  { intros f. rewrite <- Rsum_map_mult. apply Rsum_map_ext. intros p _. unfold Rdiv. ring. }
  rewrite (HI p_rho), (HI (fun x => p_x0 x * p_rho x)), Rsum_map_mult.
  assert (HP : forall a b, b <> 0 -> k * a / (k * b) = a / b) by (intros a b Hb; field; lra). destruct H as [Hn F]. rewrite Forall_forall in F. rewrite !HP; [reflexivity| |].
  - apply Rgt_not_eq, Rlt_gt, sum_pos; [assumption|]. apply Forall_forall. intros p Hp. destruct (F p Hp) as (A & B & C). apply Rdiv_lt_0_compat; [now apply Rmult_lt_0_compat|assumption].
  - apply Rgt_not_eq, Rlt_gt, sum_pos; [assumption|]. apply Forall_forall. intros p Hp. destruct (F p Hp) as (A & B & C). apply Rdiv_lt_0_compat; now apply Rmult_lt_0_compat.
Qed.
Print Assumptions C60_agree.
(* C60. Neither the order of the components nor the unit of the amounts matters. *)
Theorem C60_invariant :
  forall m m' k, sound m -> 0 < k -> Permutation m' (map (fun p => Part (p_x0 p) (p_rho p) (k * p_amount p)) m) ->
  x0_from_mixture (x0s m') (rhos m') (Some (amounts m')) None = x0_from_mixture (x0s m) (rhos m) (Some (amounts m)) None /\
  x0_from_mixture (x0s m') (rhos m') None (Some (amounts m')) = x0_from_mixture (x0s m) (rhos m) None (Some (amounts m)).
Proof.
  intros m m' k H Hk HP. set (m1 := map (fun p => Part (p_x0 p) (p_rho p) (k * p_amount p)) m) in *.
  assert (HS1 : sound m1).
  { destruct H as [Hn F]. split; [destruct m; [congruence|discriminate]|]. apply Forall_forall. intros p Hp. apply in_map_iff in Hp as (q & <- & Hq). rewrite Forall_forall in F. destruct (F q Hq) as (A & B & C).
    cbn. repeat split; try assumption. now apply Rmult_lt_0_compat. }
  assert (HS : sound m').
  { destruct HS1 as [Hn F]. split; [intros ->; apply Permutation_nil in HP; congruence|]. apply Forall_forall. intros p Hp. rewrite Forall_forall in F. apply F. now apply (Permutation_in _ HP). }
  destruct (C60_mass m' HS) as (a & b & E1 & A1 & A2 & A3 & A4). destruct (C60_mass m H) as (a' & b' & E2 & B1 & B2 & B3 & B4).
  destruct (C60_volume m' HS) as (c & d & E3 & C1 & C2 & C3 & C4). destruct (C60_volume m H) as (c' & d' & E4 & D1 & D2 & D3 & D4).
  rewrite E1, E2, E3, E4.
  assert (HT : forall f g, (forall p, g (Part (p_x0 p) (p_rho p) (k * p_amount p)) = k * f p) -> total_of g m' = k * total_of f m).
  { intros f g Hg. unfold total_of. rewrite (Rsum_perm g _ _ HP). unfold m1. rewrite map_map, <- Rsum_map_mult. apply Rsum_map_ext. intros p _. apply Hg. }
  rewrite (HT p_amount p_amount) in A3, A4, C3, C4 by reflexivity.
  rewrite (HT (fun p => p_amount p / p_rho p) (fun p => p_amount p / p_rho p)) in A3 by (intros p; cbn; unfold Rdiv; ring).
  rewrite (HT (fun p => p_amount p / (p_x0 p * p_rho p)) (fun p => p_amount p / (p_x0 p * p_rho p))) in A4 by (intros p; cbn; unfold Rdiv; ring).
  rewrite (HT (fun p => p_amount p / p_x0 p) (fun p => p_amount p / p_x0 p)) in C3 by (intros p; cbn; unfold Rdiv; ring).
  rewrite (HT (fun p => p_amount p * p_rho p) (fun p => p_amount p * p_rho p)) in C4 by (intros p; cbn; unfold Rdiv; ring).
  assert (HW : total_of p_amount m <> 0). { apply Rgt_not_eq, Rlt_gt, sum_pos; [apply H|]. destruct H as [_ F]. eapply Forall_impl; [|exact F]. intros p Hp. apply Hp. }
  assert (HQ : forall s, k * s / (k * total_of p_amount m) = s / total_of p_amount m) by (intros s; field; split; lra).
  rewrite HQ in A3, A4, C3, C4. rewrite <- B3 in A3. rewrite <- B4 in A4. rewrite <- D3 in C3. rewrite <- D4 in C4.
  assert (I : forall u v, 0 < u -> 0 < v -> 1 / u = 1 / v -> u = v). { intros u v Hu Hv E. unfold Rdiv in E. rewrite !Rmult_1_l in E. rewrite <- (Rinv_inv u), <- (Rinv_inv v). now rewrite E. }
  assert (Eb : b = b') by (apply I; assumption). subst b'. assert (Ea : a * b = a' * b) by (apply I; [now apply Rmult_lt_0_compat|now apply Rmult_lt_0_compat|exact A4]).
  assert (Ec : c = c') by (apply I; assumption). assert (a = a') by (apply (Rmult_eq_reg_r b); lra). subst. auto.
Qed.
Print Assumptions C60_invariant.
(* C60. X0 and density of the mixture lie between those of the components; of a single component they are its own. *)
Theorem C60_between :
  forall m lo hi lo' hi', sound m -> Forall (fun p => lo <= p_x0 p <= hi /\ lo' <= p_rho p <= hi') m ->
  exists x0 rho x0' rho',
    x0_from_mixture (x0s m) (rhos m) (Some (amounts m)) None = Ok (Fin x0, Fin rho) /\ lo <= x0 <= hi /\ lo' <= rho <= hi' /\
    x0_from_mixture (x0s m) (rhos m) None (Some (amounts m)) = Ok (Fin x0', Fin rho') /\ lo <= x0' <= hi /\ lo' <= rho' <= hi'.
Proof.
  assert (HB : forall m lo hi lo' hi', sound m -> Forall (fun p => lo <= p_x0 p <= hi /\ lo' <= p_rho p <= hi') m -> lo <= mass_x0 m <= hi /\ lo' <= mass_rho m <= hi').
  { intros m lo hi lo' hi' [Hn F] FB. rewrite Forall_forall in F, FB. split.
    - apply ratio_between; [assumption|]. apply Forall_forall. intros p Hp. destruct (F p Hp) as (A & B & C). destruct (FB p Hp) as [D _].
      assert (HP : 0 < p_amount p / (p_x0 p * p_rho p)) by (apply Rdiv_lt_0_compat; [assumption|now apply Rmult_lt_0_compat]). split; [exact HP|].
      replace (p_amount p / p_rho p) with (p_x0 p * (p_amount p / (p_x0 p * p_rho p))) by (field; lra). nra.
    - apply ratio_between; [assumption|]. apply Forall_forall. intros p Hp. destruct (F p Hp) as (A & B & C). destruct (FB p Hp) as [_ D].
      assert (HP : 0 < p_amount p / p_rho p) by now apply Rdiv_lt_0_compat. split; [exact HP|].
      replace (p_amount p) with (p_rho p * (p_amount p / p_rho p)) at 2 3 by (field; lra). nra. }
  intros m lo hi lo' hi' H F. exists (mass_x0 m), (mass_rho m), (mass_x0 (by_mass m)), (mass_rho (by_mass m)).
  split; [now apply mass_eq|]. destruct (HB m lo hi lo' hi' H F) as [A B]. split; [exact A|]. split; [exact B|].
  rewrite volume_eq_mass. split; [now apply mass_eq, by_mass_sound|]. apply HB; [now apply by_mass_sound|].
  apply Forall_forall. intros p Hp. apply in_map_iff in Hp as (q & <- & Hq). rewrite Forall_forall in F. exact (F q Hq).
Qed.
Print Assumptions C60_between.
(* C60. Exactly one kind of fractions has to be given. *)
Theorem C60_errors :
  forall x0s rhos w v, x0_from_mixture x0s rhos None None = Err ValueError /\ x0_from_mixture x0s rhos (Some w) (Some v) = Err ValueError.
Proof. split; reflexivity. Qed.
Print Assumptions C60_errors.
(* C60. Lists of different lengths are refused, unless the shorter one has one entry (which stands for all components). *)
Theorem C60_lengths :
  forall x0s rhos fr, (2 <= length fr)%nat -> (2 <= length rhos)%nat -> length fr <> length rhos -> (length x0s = length rhos \/ length x0s = 1%nat) ->
  x0_from_mixture x0s rhos (Some fr) None = Err ValueError /\ x0_from_mixture x0s rhos None (Some fr) = Err ValueError.
Proof.
  assert (G : forall A B C (f : A -> B -> C) l m, (2 <= length l)%nat -> (2 <= length m)%nat -> length l <> length m -> bcast ValueError f l m = Err ValueError).
  { intros A B C f l m L1 L2 D. unfold bcast. rewrite (proj2 (Nat.eqb_neq _ _) D). destruct l as [|a [|b l]]; cbn in L1; try lia. destruct m as [|c [|d m]]; cbn in L2; try lia. reflexivity. }
  intros x0s rhos fr L1 L2 D Hx. unfold x0_from_mixture. split.
  - cbn [bind]. assert (EX : exists q, bcast ValueError xmul x0s rhos = Ok q /\ length q = length rhos).
    { unfold bcast. destruct (Nat.eqb_spec (length x0s) (length rhos)) as [Q|Q].
      - eexists. split; [reflexivity|]. rewrite map_length, combine_length. lia.
      - destruct Hx as [Hx|Hx]; [lia|]. destruct x0s as [|a [|b l]]; cbn in Hx; try lia. eexists. split; [reflexivity|]. apply map_length. }
    destruct EX as (q & -> & Lq). cbn [bind]. rewrite G; [reflexivity|rewrite map_length; exact L1|lia|rewrite map_length; lia].
  - rewrite G; [reflexivity|exact L2|exact L1|lia].
Qed.
Print Assumptions C60_lengths.
Example C60_lengths_case : x0_from_mixture [Fin 1; Fin 2] [Fin 1; Fin 2] None (Some [Fin 1; Fin 2; Fin 3]) = Err ValueError.
Proof. apply C60_lengths; cbn; try lia; auto. Qed.
Example C60_case : sound [Part 1 2 3; Part 4 1 2].
Proof. split; [discriminate|]. repeat constructor; cbn; lra. Qed.

(* C61. Class numbers to X0s and back, for a map in which neither numbers nor X0s repeat; the arrays given are not changed. *)
Theorem C61_round_trip :
  forall id2x0 arr, NoDup (map fst id2x0) -> NoDup (map snd id2x0) -> (forall i, In i arr -> In i (map fst id2x0)) ->
  exists xs, class_to_x0preds arr id2x0 = Ok (arr, xs) /\ Forall2 (fun i x => In (i, x) id2x0) arr xs /\
    x0targs_to_classtargs xs (map (fun p => (snd p, fst p)) id2x0) = Ok (xs, arr).
Proof.
  intros d arr N1 N2 HA. set (f := fun i => match dget Z.eqb d i with Ok x => x | Err _ => 0 end).
  assert (Hf : forall i, In i arr -> dget Z.eqb d i = Ok (f i) /\ In (i, f i) d).
  { intros i Hi. unfold f. destruct (dget Z.eqb d i) as [x|e] eqn:E; [split; [reflexivity|now apply (dget_some Z.eqb Z.eqb_eq)]|]. exfalso. specialize (HA i Hi). apply in_map_iff in HA as ([i' x] & E1 & H1). cbn in E1. subst i'.
    rewrite (dget_in Z.eqb Z.eqb_eq _ _ _ N1 H1) in E. discriminate. }
  exists (map f arr). split; [|split].
  - unfold class_to_x0preds. apply (fill_all Z.ltb Z.eqb Z.eqb_eq uniqueZ_in (dget Z.eqb d) f 0). intros a Ha. now apply Hf.
  - assert (HX : forall l, (forall i, In i l -> In (i, f i) d) -> Forall2 (fun i x => In (i, x) d) l (map f l)).
    { induction l as [|i l IH]; intros H; constructor; [apply H; left; reflexivity|]. apply IH. intros; apply H; right; assumption. }
    apply HX. intros i Hi. now apply Hf.
  - set (d' := map (fun p => (snd p, fst p)) d). assert (HN : NoDup (map fst d')) by (unfold d'; rewrite map_map; exact N2).
    set (g := fun x => match class_of d' x with Ok c => c | Err _ => 0%Z end).
    assert (Hg : forall i, In i arr -> class_of d' (f i) = Ok i).
    { intros i Hi. destruct (Hf i Hi) as [_ H]. assert (H' : In (f i, i) d') by (unfold d'; apply in_map_iff; exists (i, f i); auto).
      destruct (class_of_nearest d' (f i)) as (c & E & k & Hk & Hm); [intros E; rewrite E in H'; destruct H'|exact HN|]. specialize (Hm _ _ H'). rewrite (Rminus_diag_eq (f i)), Rabs_R0 in Hm by reflexivity.
      pose proof (Rabs_pos (k - f i)). assert (k - f i = 0) by (destruct (Req_dec (k - f i) 0) as [Z0|Z0]; [exact Z0|pose proof (Rabs_pos_lt _ Z0); lra]). assert (k = f i) by lra. subst k. rewrite E. f_equal.
      pose proof (dget_in Reqb Reqb_true _ _ _ HN Hk). pose proof (dget_in Reqb Reqb_true _ _ _ HN H'). congruence. }
    unfold x0targs_to_classtargs. rewrite (fill_all Rltb Reqb Reqb_true uniqueR_in (class_of d') g 0%Z).
    + f_equal. f_equal. rewrite map_map. rewrite <- (map_id arr) at 2. apply map_ext_in. intros i Hi. unfold g. now rewrite Hg.
    + intros a Ha. apply in_map_iff in Ha as (i & <- & Hi). unfold g. now rewrite Hg.
Qed.
Print Assumptions C61_round_trip.
(* C61. An unknown class number is reported. *)
Theorem C61_unknown :
  forall id2x0 arr i, In i arr -> ~ In i (map fst id2x0) -> class_to_x0preds arr id2x0 = Err KeyError.
Proof.
  intros d arr i Hi Hn. unfold class_to_x0preds. apply (fill_err Z.eqb (dget Z.eqb d) KeyError) with (u := i).
  - intros a. destruct (in_dec Z.eq_dec a (map fst d)) as [H|H]; [|right; now apply (dget_none Z.eqb Z.eqb_eq)].
    left. destruct (dget Z.eqb d a) as [x|e] eqn:E; [eauto|]. exfalso. assert (He : e = KeyError). { clear - E. induction d as [|[k v] d IH]; cbn in E; [congruence|]. destruct (Z.eqb k a); [discriminate|auto]. } subst e. apply (dget_none Z.eqb Z.eqb_eq) in E. auto.
  - now apply uniqueZ_in.
  - now apply (dget_none Z.eqb Z.eqb_eq).
Qed.
Print Assumptions C61_unknown.
Example C61_case : NoDup (map fst [(0%Z, 1 / 2); (1%Z, 3)]) /\ NoDup (map snd [(0%Z, 1 / 2); (1%Z, 3)]) /\ (forall i, In i [1; 0; 1]%Z -> In i (map fst [(0%Z, 1 / 2); (1%Z, 3)])).
Proof. split; [|split]; cbn. - repeat constructor; cbn; intuition lia. - constructor; [cbn; intros [H|[]]; lra|repeat constructor; auto]. - intuition. Qed.
Example C59_case : let d := [(1 / 2, 0%Z); (1 / 4, 1%Z)] in let vals := [1 / 2; 1 / 3; 1 / 4] in
  d <> [] /\ NoDup (map fst d) /\ (forall x y c, In x vals -> In y vals -> nearest_class d x c -> IZR c = y -> y <= x) /\
  (forall k c, In (k, c) d -> (0 <= c)%Z /\ Forall (fun col => (Z.to_nat c < length col)%nat) [[-1; -2]; [-1; -3]; [-2; -1]]).
Proof.
  cbn -[IZR]. split; [discriminate|]. split; [constructor; [cbn; intros [H|[]]; lra|repeat constructor; auto]|]. split.
  - intros x y c _ Hy _ E. exfalso. assert (0 < y < 1) as [H1 H2] by (destruct Hy as [<-|[<-|[<-|[]]]]; lra). rewrite <- E in *. apply lt_IZR in H1. apply lt_IZR in H2. lia.
  - intros k c [E|[E|[]]]; injection E as <- <-; (split; [lia|]); repeat constructor.
Qed.
Lemma bce_value p c : 0 <= p <= 1 -> c = 0%Z \/ c = 1%Z ->
  bce1 p (IZR c) = Ok (- cut_log (if Z.eqb c 1 then p else 1 - p)).
Proof.
  intros Hp Hc. unfold bce1. destruct (Rltb_spec p 0); [lra|]. destruct (Rltb_spec 1 p); [lra|]. cbn [orb]. f_equal. destruct Hc as [-> | ->]; cbn [Z.eqb Pos.eqb]; ring.
Qed.
Lemma cut_log_le x : x <= 1 -> cut_log x <= 0 /\ (cut_log x = 0 <-> x = 1).
Proof.
  intros Hx. unfold cut_log. destruct (Rltb_spec 0 x) as [H|H]; [|split; [lra|split; intros; lra]].
  assert (HL : ln x <= 0). { destruct (Rle_lt_or_eq_dec x 1 Hx) as [L|E]; [left; rewrite <- ln_1; now apply ln_increasing|subst; rewrite ln_1; lra]. }
  split; [apply Rmax_lub; lra|]. split.
  - intros E. destruct (Rle_lt_or_eq_dec x 1 Hx) as [L|E']; [|exact E']. exfalso. assert (ln x < 0) by (rewrite <- ln_1; now apply ln_increasing). unfold Rmax in E. destruct (Rle_dec (ln x) (-100)); lra.
  - intros ->. rewrite ln_1. unfold Rmax. destruct (Rle_dec 0 (-100)); lra.
Qed.
Lemma cut_log_cut x : (exp (-100) <= x -> cut_log x = ln x) /\ (x <= exp (-100) -> cut_log x = -100).
Proof.
  pose proof (exp_pos (-100)). unfold cut_log. split; intro H0.
  - destruct (Rltb_spec 0 x); [|lra]. apply Rmax_left. rewrite <- (ln_exp (-100)). destruct H0 as [H0|<-]; [left; now apply ln_increasing|right; reflexivity].
  - destruct (Rltb_spec 0 x); [|reflexivity]. apply Rmax_right. rewrite <- (ln_exp (-100)). destruct H0 as [H0| ->]; [left; now apply ln_increasing|right; reflexivity].
Qed.
(* C59. The loss of a volume's target: the nearest known X0 gives its class c. Log-probabilities of several classes: minus that of c;
   a probability of class 1: minus the logarithm of the probability q of c, at most 100, so 0 exactly if it is 1, and otherwise positive;
   what is not a probability is refused. *)
Theorem C59_volume_loss :
  forall x02id x, x02id <> [] -> NoDup (map fst x02id) -> exists c, nearest_class x02id x c /\
  (forall n col, (1 < n)%nat -> (0 <= c)%Z -> (Z.to_nat c < length col)%nat ->
    volume_class_loss x02id n [col] [x] = Ok (Fin (- nth (Z.to_nat c) col 0))) /\
  (forall p, 0 <= p <= 1 -> c = 0%Z \/ c = 1%Z ->
    let q := if Z.eqb c 1 then p else 1 - p in
    exists e, volume_class_loss x02id 1 [[p]] [x] = Ok (Fin e) /\ 0 <= e /\ (e = 0 <-> p = IZR c) /\
      (exp (-100) <= q -> e = - ln q) /\ (q <= exp (-100) -> e = 100)) /\
  (forall p, p < 0 \/ 1 < p -> volume_class_loss x02id 1 [[p]] [x] = Err RuntimeError).
Proof.
  intros d x Hd N. destruct (C59_targets d [x] Hd N) as (cs & E1 & E2 & E3). { intros a b c [<-|[]] [<-|[]] _ _. apply Rle_refl. }
  inversion E3 as [|? c ? l Hc Hl]; subst. inversion Hl; subst. exists c. split; [exact Hc|]. split; [|split].
  - intros n col Hn H0 Hlen. unfold volume_class_loss. rewrite E1. cbn [bind]. rewrite (proj2 (Nat.ltb_lt 1 n)), E2 by exact Hn. unfold nll_loss. cbn [length Nat.eqb combine mapM fst snd]. unfold pick.
    rewrite (proj2 (Z.ltb_ge c 0)) by lia. rewrite (nth_error_nth' col 0 Hlen). cbn [bind map]. unfold xmean. cbn [length]. change [Fin (- nth (Z.to_nat c) col 0)] with (map Fin [- nth (Z.to_nat c) col 0]). rewrite xtotal_fin, xdiv_fin by (cbn; lra). cbn. do 2 f_equal. field.
  - intros p Hp H01 q. exists (- cut_log (if Z.eqb c 1 then p else 1 - p)). split.
    + unfold volume_class_loss. rewrite E1. cbn [bind Nat.ltb Nat.leb concat app map]. unfold binary_cross_entropy. cbn [length Nat.eqb combine mapM fst snd]. rewrite bce_value by assumption. cbn [bind].
      unfold xmean. rewrite map_length, xtotal_fin, xdiv_fin by (cbn; lra). cbn. do 2 f_equal. field.
    + fold q. enough (0 <= - cut_log q /\ (- cut_log q = 0 <-> p = IZR c)) as [HA HB].
      { split; [exact HA|]. split; [exact HB|]. destruct (cut_log_cut q) as [C1 C2]. split; intro Hq; [rewrite C1 by exact Hq|rewrite C2 by exact Hq]; lra. }
      unfold q. destruct H01 as [-> | ->]; cbn [Z.eqb Pos.eqb].
      * destruct (cut_log_le (1 - p)) as [A B]; [lra|]. split; [lra|]. split; intros E; [assert (1 - p = 1) by (apply B; lra); lra|]. assert (cut_log (1 - p) = 0) by (apply B; lra). lra.
      * destruct (cut_log_le p) as [A B]; [lra|]. split; [lra|]. split; intros E; [apply B; lra|]. apply B in E. lra.
  - intros p Hp. unfold volume_class_loss. rewrite E1. cbn [bind Nat.ltb Nat.leb concat app map]. unfold binary_cross_entropy. cbn [length Nat.eqb combine mapM fst snd]. unfold bce1.
    destruct (Rltb_spec p 0); [reflexivity|]. destruct (Rltb_spec 1 p); [reflexivity|lra].
Qed.
Print Assumptions C59_volume_loss.
(* C77. The squared-error losses are non-negative, and zero exactly for exact predictions. *)
Theorem C77_mse :
  forall pred true, pred <> [] -> length pred = length true ->
  exists e, mse_loss pred true = Fin e /\ 0 <= e /\ (e = 0 <-> pred = true).
Proof.
  intros pred true Hn HL. unfold mse_loss. set (g := fun p : R * R => (fst p - snd p) * (fst p - snd p)). rewrite <- (map_map g Fin). unfold xmean. rewrite map_length, xtotal_fin.
  assert (HI : 0 < INR (length (map g (combine pred true)))). { rewrite map_length, combine_length, <- HL, Nat.min_id. apply lt_0_INR. destruct pred; [congruence|cbn; lia]. }
  rewrite xdiv_fin by lra. eexists. split; [reflexivity|].
  assert (HS : 0 <= Rsum (map g (combine pred true)) /\ (Rsum (map g (combine pred true)) = 0 <-> pred = true)).
  { clear HI Hn. revert true HL. induction pred as [|a l IH]; intros [|b l'] HL; try discriminate; [cbn; split; [lra|tauto]|]. cbn [combine map Rsum]. specialize (IH l' ltac:(injection HL; auto)) as [A B].
    unfold g at 1 3. cbn [fst snd]. assert (0 <= (a - b) * (a - b)) by (apply Rle_0_sqr). split; [lra|]. split.
    - intros E. assert (E1 : (a - b) * (a - b) = 0) by lra. apply Rmult_integral in E1. f_equal; [lra|]. apply B. lra.
    - intros [= -> ->]. rewrite (proj2 B eq_refl). ring. }
  destruct HS as [A B]. split; [apply Rmult_le_pos; [exact A|left; now apply Rinv_0_lt_compat]|]. rewrite <- B. split.
  - intros E. unfold Rdiv in E. apply Rmult_integral in E as [E|E]; [exact E|]. pose proof (Rinv_0_lt_compat _ HI). lra.
  - intros ->. unfold Rdiv. ring.
Qed.
Print Assumptions C77_mse.
Example C77_case : mse_loss [1; 2] [1; 4] = Fin 2.
Proof. unfold mse_loss, xmean. cbn [combine map fst snd length]. unfold xtotal. cbn [fold_right xadd]. rewrite xdiv_fin by (cbn; lra). cbn. f_equal. field. Qed.
