(* The one-cycle schedule (C47) and the smoothness schedule (C50). *)
From Coq Require Import Lia Lra Bool ZArith.
From Verif Require Import Base.RUtil Model.Fit Model.Warmup Model.Schedules Spec.FitSpec Spec.ReplaySpec Spec.WarmupSpec Spec.SchedSpec
  Proofs.FitP Proofs.FitCount Proofs.ReplayP Proofs.WarmupP Proofs.PostP Proofs.SchedP Properties.WarmupProps.
Open Scope list_scope.
Open Scope nat_scope.

Lemma shape_all {I P} c validate n_trn n_val (xs : list (epoch I P)) : Forall (epoch_shape c validate n_trn n_val) xs ->
  Forall (fun x => length (sc_batches (ep_train x)) = n_trn / c_bs c) xs.
Proof. apply Forall_impl. intros x [[H _] _]. exact H. Qed.

(* C47. The rates in a fit with a OneCycle callback at place q, after all warm-ups: after b batches of epoch i, for all numbers of epochs, batches,
   warm-up epochs and all arguments for which the fit does not raise. *)
Theorem C47_rates :
  forall W I P (E : env W I P) (obs : W -> list slot * oc) g known q on n bs n_mu mu_bs validate a cbs' a' tr,
  let l0 := fst (obs (w_w a)) in let o0 := snd (obs (w_w a)) in let m := post_cb q (one_cycle g known (e_len E TrnData)) in
  tame E (places l0) -> 0 < bs -> follows E (places l0) obs m ->
  nth_error l0 q = Some (SPost on) -> lengths (skipn q l0) = [] ->
  fit E n bs n_mu mu_bs validate (places l0) a = (Ok cbs', a', tr) ->
  let c := Cfg (places l0) bs n_mu mu_bs in let bb := e_len E TrnData / bs in
  exists xs, tr = doc_fit c xs /\ length xs <= n /\ Forall (epoch_shape c validate (e_len E TrnData) (e_len E ValData)) xs /\
  forall i x b, nth_error xs i = Some x -> 0 < b <= bb ->
    let o := snd (vw_st (replay m (fresh n bs (obs (w_w a))) (after c xs i x b))) in
    one_cycle_rate (oa_init_lr g) (oa_mid_lr g) (oa_final_lr g) n bb (total l0) (oa_length g) i b (oc_lr o0) (oc_lr o) /\
    one_cycle_rate (oa_init_mom g) (oa_mid_mom g) (oa_final_mom g) n bb (total l0) (oa_length g) i b (oc_mom o0) (oc_mom o).
Proof.
  intros W I P E obs g known q b0 n bs n_mu mu_bs validate a cbs' a' tr l0 o0 m HT Hb HF Hq Hlast H c bb.
  destruct (fit_replay E obs m _ _ _ _ _ _ _ _ _ _ HT Hb HF H) as (xs & Ht & L1 & _ & F1 & _ & _ & Hqu & _). fold c in Ht, F1. subst tr.
  exists xs. split; [reflexivity|]. split; [exact L1|]. split; [exact F1|]. intros i x b Hx Hbb.
  unfold fresh in *. rewrite (surjective_pairing (obs (w_w a))) in *. fold l0 o0 in Hqu |- *.
  pose proof (own_batches q (one_cycle g known (e_len E TrnData)) l0 c (Some n) (Some bs) bb b0 (oc_skip g known _) (oc_idle g known _) eq_refl Hq Hlast
    (Jo g (e_len E TrnData) n bs (total l0) o0) (Do g (e_len E TrnData) n bs (total l0) o0) o0
    (oc_J0 g known _ n bs (total l0) o0 Hb b0) (oc_JD g known _ n bs (total l0) o0 Hb) (oc_DD g known _ n bs (total l0) o0 Hb) (oc_DJ g known _ n bs (total l0) o0 Hb)
    (oc_Jb g known _ n bs (total l0) o0) (oc_Je g known _ n bs (total l0) o0 Hb) xs i x b (shape_all _ _ _ _ _ F1) Hx ltac:(lia) Hqu) as [_ HD].
  destruct HD as (_ & _ & _ & _ & HR). exact (HR ltac:(lia)).
Qed.
Print Assumptions C47_rates.

(* C47. Half a cosine goes from p0 to p1 monotonically, and only in [0, s]: after it, it turns back. *)
Theorem C47_ramp :
  forall p0 p1 s, (0 < s)%R ->
  ramp p0 p1 0 s = p0 /\ ramp p0 p1 s s = p1 /\
  (forall t t', 0 <= t <= t' -> t' <= s -> (p0 <= p1 -> ramp p0 p1 t s <= ramp p0 p1 t' s) /\ (p1 <= p0 -> ramp p0 p1 t' s <= ramp p0 p1 t s))%R /\
  (forall t, ramp p0 p1 (2 * s - t) s = ramp p0 p1 t s).
Proof.
  intros p0 p1 s Hs. pose proof PI_RGT_0 as HP. split; [|split; [|split]].
  - unfold ramp. replace (PI * 0 / s)%R with 0%R by (field; lra). rewrite cos_0. lra.
  - unfold ramp. replace (PI * s / s)%R with PI by (field; lra). rewrite cos_PI. lra.
  - intros t t' H H'. assert (Hc : (cos (PI * t' / s) <= cos (PI * t / s))%R).
    { assert (HX : forall x, (0 <= x <= s -> 0 <= PI * x / s <= PI)%R).
      { intros x Hx. split; [apply Rmult_le_pos; [nra|left; now apply Rinv_0_lt_compat]|]. apply (Rmult_le_reg_r s); [lra|]. replace (PI * x / s * s)%R with (PI * x)%R by (field; lra). nra. }
      destruct (HX t ltac:(lra)), (HX t' ltac:(lra)). apply cos_decr_1; try lra. unfold Rdiv. apply Rmult_le_compat_r; [left; now apply Rinv_0_lt_compat|]. nra. }
    unfold ramp. split; intros; nra.
  - intros t. unfold ramp. replace (PI * (2 * s - t) / s)%R with (- (PI * t / s) + 2 * PI)%R by (field; lra). rewrite cos_plus, cos_neg, cos_2PI, sin_2PI. do 4 f_equal. lra.
Qed.
Print Assumptions C47_ramp.

Lemma post_stage_tame {O} q (own : own_cb O) n_trn n_val cbs : tame (stage (post_cb q own) n_trn n_val) cbs.
Proof.
  apply stage_tame. intros k e v b s He. unfold post_cb. destruct (vw_st v) as [l o]. rewrite warm_idle by (destruct e; now inversion He). unfold same_as. cbn [vw_skip vw_st with_st].
  destruct (Nat.eqb k q); [|now intros [= <- _]]. match goal with |- context [own ?a ?b ?c ?d] => destruct (own a b c d) end; [|discriminate]. now intros [= <- _].
Qed.
(* a fit of n epochs of one batch, with warm-ups of the given lengths and one OneCycle *)
Definition one_cycle_fit (g : oc_args) (ws : list nat) (n : nat) :=
  let q := length ws in let l0 := map (fun k => SWarm k 0 false) ws ++ [SPost false] in
  fit (stage (post_cb q (one_cycle g true 1)) 1 1) n 1 2 1 true (places l0) (Wrapper None (l0, Oc 0 None None 0%R 0%R)).
Definition outcome {A B C} (x : res A * B * C) : res unit := match fst (fst x) with Ok _ => Ok tt | Err e => Err e end.
Definition cycle131 : oc_args := OcArgs 1 (Some 1%R) (Some 3%R) None None None None.
Ltac fit_eval := lazy -[cos PI INR IZR Rplus Rmult Rminus Rdiv Ropp]; try reflexivity.
(* C47 is false: four epochs of one batch, one epoch of warm-up, from 1 to 3 and back (the final rate is not given), no warm-up callbacks.
   The rates after the epochs are 3, 1, 3/2 and 5/2: the rate falls in one epoch, then rises, and ends away from its final value. *)
Theorem C47_refuted :
  exists (E : env (list slot * oc) nat nat) cbs a cbs' a' xs, 
  let m := post_cb 0 (one_cycle cycle131 true 1) in let c := Cfg cbs 1 2 1 in
  tame E cbs /\ follows E cbs (fun s => s) m /\ cbs = places (fst (w_w a)) /\ fst (w_w a) = [SPost false] /\
  fit E 4 1 2 1 true cbs a = (Ok cbs', a', doc_fit c xs) /\ length xs = 4 /\
  forall i x, nth_error xs i = Some x ->
    oc_lr (snd (vw_st (replay m (fresh 4 1 (w_w a)) (after c xs i x 1)))) = nth i [3; 1; 3 / 2; 5 / 2]%R 0%R.
Proof.
  set (E := stage (post_cb 0 (one_cycle cycle131 true 1)) 1 1). set (a := Wrapper (P := nat) None ([SPost false], Oc 0 None None 0%R 0%R)).
  destruct (fit E 4 1 2 1 true [0] a) as [[r a'] tr] eqn:Ef.
  assert (Er : r = Ok [0] /\ count is_zero tr = 4).
  { assert (Hr : fst (fst (fit E 4 1 2 1 true [0] a)) = Ok [0] /\ count is_zero (snd (fit E 4 1 2 1 true [0] a)) = 4) by (split; fit_eval). now rewrite Ef in Hr. }
  destruct Er as [-> Ec].
  assert (HT : tame E [0]) by apply post_stage_tame. assert (HF : follows E [0] (fun s => s) (post_cb 0 (one_cycle cycle131 true 1))) by apply stage_follows.
  destruct (C47_rates _ _ _ E (fun s => s) cycle131 true 0 false 4 1 2 1 true a _ _ _ HT ltac:(lia) HF eq_refl eq_refl Ef) as (xs & Ht & L & F & HR).
  cbv zeta in Ht, F, HR. change (w_w a) with ([SPost false], Oc 0 None None 0%R 0%R) in *. cbn [fst] in Ht, F, HR. change (places [SPost false]) with [0] in *.
  exists E, [0], a, [0], a', xs. cbv zeta. split; [exact HT|]. split; [exact HF|]. split; [reflexivity|]. split; [reflexivity|]. split; [now rewrite Ef, Ht|].
  assert (Hl : length xs = 4).
  { rewrite Ht, fit_zeros in Ec. rewrite (list_sum_const _ 1) in Ec; [lia|]. eapply Forall_impl; [|exact (shape_all _ _ _ _ _ F)]. intros x Hx. exact Hx. }
  split; [exact Hl|]. intros i x Hx. destruct (HR i x 1 Hx ltac:(cbn; lia)) as [[_ H] _]. clear HR. destruct (H (Nat.le_0_l _)) as (p1 & E1 & H1 & H2). injection E1 as <-.
  assert (Hi : i < 4) by (rewrite <- Hl; apply nth_error_Some; congruence). change (total [SPost false]) with 0 in *. change (oa_length cycle131) with 1 in *.
  change (w_w a) with ([SPost false], Oc 0 None None 0%R 0%R). set (r := oc_lr _) in *. clearbody r. change (e_len E TrnData / 1) with 1 in *. clear - Hi H1 H2.
  destruct i as [|[|[|[|i]]]]; [| | | |lia]; cbn [nth].
  - rewrite H1 by lia. unfold ramp. cbn [Nat.sub Nat.mul Nat.add INR]. replace (PI * 1 / 1)%R with PI by field. rewrite cos_PI. lra.
  - rewrite H1 by lia. unfold ramp. cbn [Nat.sub Nat.mul Nat.add INR]. replace (PI * (1 + 1) / 1)%R with (2 * PI)%R by field. rewrite cos_2PI. lra.
  - rewrite H2 by lia. unfold ramp. cbn [Nat.sub Nat.mul Nat.add INR cycle131 oa_final_lr]. replace (PI * 1 / ((1 + 1 + 1 + 1 - 0 - 1) * 1))%R with (PI / 3)%R by field. rewrite cos_PI3. lra.
  - rewrite H2 by lia. unfold ramp. cbn [Nat.sub Nat.mul Nat.add INR cycle131 oa_final_lr]. replace (PI * (1 + 1) / ((1 + 1 + 1 + 1 - 0 - 1) * 1))%R with (2 * (PI / 3))%R by field. rewrite cos_2PI3. lra.
Qed.
Print Assumptions C47_refuted.

(* C47 is false: fits that end in an exception of the schedule: no warm-up length; a cycle that ends with the warm-up length after the warm-up callbacks;
   warm-up callbacks for longer than the warm-up length; no mid value. *)
Theorem C47_raises_refuted :
  outcome (one_cycle_fit (OcArgs 0 (Some 1%R) (Some 3%R) (Some 1%R) None None None) [] 4) = Err ZeroDivisionError /\
  outcome (one_cycle_fit (OcArgs 3 (Some 1%R) (Some 3%R) (Some 1%R) None None None) [2] 5) = Err ZeroDivisionError /\
  outcome (one_cycle_fit cycle131 [1; 2] 5) = Err AttributeError /\
  outcome (one_cycle_fit (OcArgs 1 (Some 1%R) None (Some 1%R) None None None) [] 4) = Err TypeErr.
Proof. repeat split; fit_eval. Qed.
Print Assumptions C47_raises_refuted.
(* C47. A schedule for an optimiser that does not exist is refused, and the state is as it was. *)
Theorem C47_unknown :
  forall g n_trn n_val n bs n_mu mu_bs validate o,
  let x := fit (stage (post_cb 0 (one_cycle g false n_trn)) n_trn n_val) n bs n_mu mu_bs validate (places [SPost false]) (Wrapper None ([SPost false], o)) in
  outcome x = Err ValueError /\ w_w (snd (fst x)) = ([SPost false], o).
Proof. intros. split; lazy -[cos PI INR IZR Rplus Rmult Rminus Rdiv Ropp]; reflexivity. Qed.
Print Assumptions C47_unknown.

(* C50. The smoothness of all panels in a fit with a smoothness schedule at place q, after all warm-ups: the start of the range before the first active epoch,
   a geometric sequence from there, one value for each epoch.  The number of panels does not change. *)
Theorem C50_values :
  forall W I P (E : env W I P) (obs : W -> list slot * sm) r0 r1 q on n bs n_mu mu_bs validate a cbs' a' tr,
  let l0 := fst (obs (w_w a)) in let o0 := snd (obs (w_w a)) in let m := post_cb q (smooth_sched r0 r1) in let t := total l0 in
  (0 < r0)%R -> (0 < r1)%R -> tame E (places l0) -> 0 < bs -> follows E (places l0) obs m ->
  nth_error l0 q = Some (SPost on) -> lengths (skipn q l0) = [] ->
  fit E n bs n_mu mu_bs validate (places l0) a = (Ok cbs', a', tr) ->
  let c := Cfg (places l0) bs n_mu mu_bs in
  exists xs, tr = doc_fit c xs /\ length xs <= n /\
  forall i x b, nth_error xs i = Some x -> b <= e_len E TrnData / bs ->
    sm_panels (snd (vw_st (replay m (fresh n bs (obs (w_w a))) (after c xs i x b)))) =
    repeat (if i <? t then r0 else geometric r0 r1 (n - t) (i - t)) (length (sm_panels o0)).
Proof.
  intros W I P E obs r0 r1 q b0 n bs n_mu mu_bs validate a cbs' a' tr l0 o0 m t H0 H1 HT Hb HF Hq Hlast H c.
  destruct (fit_replay E obs m _ _ _ _ _ _ _ _ _ _ HT Hb HF H) as (xs & Ht & L1 & _ & F1 & _ & _ & Hqu & _). fold c in Ht, F1. subst tr.
  exists xs. split; [reflexivity|]. split; [exact L1|]. intros i x b Hx Hbb.
  unfold fresh in *. rewrite (surjective_pairing (obs (w_w a))) in *. fold l0 o0 in Hqu |- *.
  pose proof (own_batches q (smooth_sched r0 r1) l0 c (Some n) (Some bs) (e_len E TrnData / bs) b0 (sm_skip r0 r1) (sm_idle r0 r1) eq_refl Hq Hlast
    (Js r0 r1 n t o0) (Ds r0 r1 n t o0) o0
    (sm_J0 r0 r1 n bs t o0 b0) (sm_JD r0 r1 n bs t o0 H0 H1) (sm_DD r0 r1 n bs t o0) (sm_DJ r0 r1 n bs t o0 _)
    (sm_Jb r0 r1 n bs t o0) (sm_Je r0 r1 n bs t o0) xs i x b (shape_all _ _ _ _ _ F1) Hx Hbb Hqu) as [_ HD].
  exact (proj2 (proj2 HD)).
Qed.
Print Assumptions C50_values.

(* C50. The sequence starts at r0, with at least two terms ends at r1, is monotone, and stays between r0 and r1. *)
Theorem C50_range :
  forall r0 r1 n, (0 < r0)%R -> (0 < r1)%R -> 0 < n ->
  geometric r0 r1 n 0 = r0 /\ (1 < n -> geometric r0 r1 n (n - 1) = r1) /\
  (forall i j, i <= j < n -> (r0 <= r1 -> geometric r0 r1 n i <= geometric r0 r1 n j)%R /\ (r1 <= r0 -> geometric r0 r1 n j <= geometric r0 r1 n i)%R) /\
  (forall i, i < n -> (Rmin r0 r1 <= geometric r0 r1 n i <= Rmax r0 r1)%R).
Proof.
  intros r0 r1 n H0 H1 Hn.
  assert (Hr : (0 < r1 / r0)%R) by (apply Rmult_lt_0_compat; [assumption|now apply Rinv_0_lt_compat]).
  assert (A : geometric r0 r1 n 0 = r0).
  { unfold geometric. destruct (n =? 1); [reflexivity|]. cbn [INR]. replace (0 / INR (n - 1))%R with 0%R by (unfold Rdiv; ring). rewrite Rpower_O by exact Hr. ring. }
  assert (B : 1 < n -> geometric r0 r1 n (n - 1) = r1).
  { intros L. unfold geometric. rewrite (proj2 (Nat.eqb_neq n 1)) by lia. unfold Rdiv at 2. rewrite Rinv_r by (apply not_0_INR; lia). rewrite Rpower_1 by exact Hr. field. lra. }
  assert (C : forall i j, i <= j < n -> (r0 <= r1 -> geometric r0 r1 n i <= geometric r0 r1 n j)%R /\ (r1 <= r0 -> geometric r0 r1 n j <= geometric r0 r1 n i)%R).
  { intros i j Hij. unfold geometric. destruct (Nat.eqb_spec n 1) as [E|E]; [split; intros; lra|].
    assert (Hd : (INR i / INR (n - 1) <= INR j / INR (n - 1))%R).
    { apply Rmult_le_compat_r; [left; apply Rinv_0_lt_compat, lt_0_INR; lia|apply le_INR; lia]. }
    unfold Rpower. split; intros H; apply Rmult_le_compat_l; try lra.
    - assert (Hl : (0 <= ln (r1 / r0))%R) by (rewrite ln_div by assumption; destruct H as [H| ->]; [apply ln_increasing in H; [lra|assumption]|lra]).
      destruct (Rle_lt_or_eq_dec (INR i / INR (n - 1) * ln (r1 / r0)) (INR j / INR (n - 1) * ln (r1 / r0))) as [L|L]; [apply Rmult_le_compat_r; assumption|left; now apply exp_increasing|rewrite L; lra].
    - assert (Hl : (ln (r1 / r0) <= 0)%R) by (rewrite ln_div by assumption; destruct H as [H| ->]; [apply ln_increasing in H; [lra|assumption]|lra]).
      destruct (Rle_lt_or_eq_dec (INR j / INR (n - 1) * ln (r1 / r0)) (INR i / INR (n - 1) * ln (r1 / r0))) as [L|L]; [nra|left; now apply exp_increasing|rewrite L; lra]. }
  split; [exact A|]. split; [exact B|]. split; [exact C|]. intros i Hi. destruct (Nat.eq_dec n 1) as [-> |N].
  - replace i with 0 by lia. rewrite A. split; [apply Rmin_l|apply Rmax_l].
  - specialize (B ltac:(lia)). destruct (C 0 i ltac:(lia)) as [C1 C2]. destruct (C i (n - 1) ltac:(lia)) as [C3 C4]. rewrite A in C1, C2. rewrite B in C3, C4.
    unfold Rmin, Rmax. destruct (Rle_dec r0 r1) as [L|L]; [|assert (r1 <= r0)%R by lra]; split; auto.
Qed.
Print Assumptions C50_range.

(* C50. The schedule never raises, wherever it is placed: not in any number of epochs up to the announced one, with or without validation,
   and whatever state the callbacks were left in. *)
Theorem C50_no_exception :
  forall I P (xs : list (epoch I P)) (l0 : list slot) (o0 : sm) r0 r1 q on n bs n_mu mu_bs,
  nth_error l0 q = Some (SPost on) -> length xs <= n ->
  quiet (post_cb q (smooth_sched r0 r1)) (fresh n bs (l0, o0)) (doc_fit (Cfg (places l0) bs n_mu mu_bs) xs).
Proof. intros. eapply smooth_quiet; [reflexivity|eassumption|assumption]. Qed.
Print Assumptions C50_no_exception.

(* C50 is false for a single active epoch: it has the start of the range, also at the end of the fit. *)
Theorem C50_single_epoch_refuted :
  exists (E : env (list slot * sm) nat nat) cbs a cbs' a' tr,
  tame E cbs /\ follows E cbs (fun s => s) (post_cb 1 (smooth_sched 1 2)) /\ cbs = places (fst (w_w a)) /\ fst (w_w a) = [SWarm 2 0 false; SPost false] /\
  fit E 3 1 2 1 true cbs a = (Ok cbs', a', tr) /\ fst (w_w a') = [SWarm 2 2 false; SPost true] /\ sm_panels (snd (w_w a')) = [1; 1]%R.
Proof.
  set (E := stage (post_cb 1 (smooth_sched 1 2)) 1 1). set (a := Wrapper (P := nat) None ([SWarm 2 0 false; SPost false], Sm None [3; 4]%R)).
  destruct (fit E 3 1 2 1 true [0; 1] a) as [[r a'] tr] eqn:Ef.
  exists E, [0; 1], a, [0; 1], a', tr. split; [apply post_stage_tame|]. split; [apply stage_follows|]. split; [reflexivity|]. split; [reflexivity|].
  assert (Hr : let x := fit E 3 1 2 1 true [0; 1] a in fst (fst x) = Ok [0; 1] /\ fst (w_w (snd (fst x))) = [SWarm 2 2 false; SPost true] /\
    sm_panels (snd (w_w (snd (fst x)))) = [Rpower 10 (log10 1); Rpower 10 (log10 1)]) by (cbv zeta; split; [|split]; lazy -[Rpower log10 IZR INR]; reflexivity).
  rewrite Ef in Hr. cbn [fst snd] in Hr. destruct Hr as (-> & H1 & H2). split; [exact Ef|]. split; [exact H1|]. rewrite H2, pow_log by lra. reflexivity.
Qed.
Print Assumptions C50_single_epoch_refuted.

(* three active epochs after one of warm-up, two panels *)
Definition C50_slots : list slot := [SWarm 1 0 false; SOther; SPost true].
Example C50_case :
  let E := stage (post_cb 2 (smooth_sched 1 4)) 2 1 in
  tame E (places C50_slots) /\ follows E (places C50_slots) (fun s => s) (post_cb 2 (smooth_sched 1 4)) /\ total C50_slots = 1 /\
  outcome (fit E 4 1 2 1 true (places C50_slots) (Wrapper None (C50_slots, Sm None [3; 4]%R))) = Ok tt.
Proof. split; [apply post_stage_tame|]. split; [apply stage_follows|]. split; [reflexivity|]. lazy -[Rpower log10 IZR INR]. reflexivity. Qed.
Example C50_case_values : map (geometric 1 4 3) [0; 1; 2] = [1; 2; 4]%R.
Proof.
  assert (H : Rpower 4 (1 / 2) = 2%R) by (replace 4%R with (Rpower 2 2) by (replace 2%R with (INR 2) at 2 by (cbn; lra); rewrite Rpower_pow by lra; lra); rewrite Rpower_mult; replace (2 * (1 / 2))%R with 1%R by lra; apply Rpower_1; lra).
  cbn [map]. unfold geometric. cbn [Nat.eqb Nat.sub INR]. replace (4 / 1)%R with 4%R by lra. replace (0 / (1 + 1))%R with 0%R by lra. replace (1 / (1 + 1))%R with (1 / 2)%R by lra. replace ((1 + 1) / (1 + 1))%R with 1%R by lra.
  rewrite Rpower_O, Rpower_1, H by lra. repeat f_equal; lra.
Qed.
