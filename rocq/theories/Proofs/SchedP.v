(* The one-cycle and smoothness schedules. *)
From Coq Require Import Lia Lra Bool ZArith.
From Verif Require Import Base.RUtil Model.Fit Model.Warmup Model.Schedules Spec.FitSpec Spec.ReplaySpec Spec.WarmupSpec Spec.SchedSpec
  Proofs.FitP Proofs.FitCount Proofs.ReplayP Proofs.WarmupP Proofs.PostP.
Open Scope list_scope.
Open Scope nat_scope.

(* ---- OneCycle ---- *)
Section OC.
Variables (g : oc_args) (known : bool) (n_trn n bs T : nat) (o0 : oc).
Hypothesis Hbs : 0 < bs.
Notation W := (oa_length g).
Notation B := (n_trn / bs).
Notation own := (one_cycle g known n_trn).
Lemma oc_skip : forall e f a v v', vw_mode v = vw_mode v' -> vw_epoch v = vw_epoch v' -> vw_n_epochs v = vw_n_epochs v' -> vw_bs v = vw_bs v' -> vw_st v = vw_st v' ->
  own e f a v = own e f a v'.
Proof. intros e f a [md ep sk ne b o] [md' ep' sk' ne' b' o']. cbn. intros -> -> -> -> ->. destruct e; reflexivity. Qed.
Lemma oc_idle : forall e f a v, in_scan e = true -> e <> StepEnd -> own e f a v = Ok (vw_st v).
Proof. intros e f a v H N. destruct e; try discriminate H; try reflexivity. congruence. Qed.
Definition late i : bool := (T <=? W) && (W <? i).
Definition it0 (i : nat) : nat := if i <=? T then 0 else if late i then (i - W - 1) * B else (i - T) * B.
Definition ph (i : nat) : bool * Z := if late i then (false, (Z.of_nat n - Z.of_nat T - Z.of_nat W) * Z.of_nat B)%Z else (true, Z.of_nat W * Z.of_nat B)%Z.
Definition lr1 : R := or_keep (oa_init_lr g) (oc_lr o0).
Definition mom1 : R := or_keep (oa_init_mom g) (oc_mom o0).
Definition set_up i (o : oc) : Prop := oc_exp o = Some (B, (Z.of_nat n - Z.of_nat T)%Z) /\ oc_phase o = Some (ph i).
Definition unset (o : oc) : Prop := oc_lr o = lr1 /\ oc_mom o = mom1.
Definition kept (o : oc) : Prop := (oa_init_lr g = None -> oc_lr o = oc_lr o0) /\ (oa_init_mom g = None -> oc_mom o = oc_mom o0).
Definition Jo (i : nat) (o : oc) : Prop := oc_iter o = it0 i /\ (T < i -> set_up i o) /\ (i <= T -> unset o) /\ kept o.
Definition rates (i b : nat) (o : oc) : Prop :=
  one_cycle_rate (oa_init_lr g) (oa_mid_lr g) (oa_final_lr g) n B T W i b (oc_lr o0) (oc_lr o) /\
  one_cycle_rate (oa_init_mom g) (oa_mid_mom g) (oa_final_mom g) n B T W i b (oc_mom o0) (oc_mom o).
Definition Do (i b : nat) (o : oc) : Prop :=
  oc_iter o = it0 i + (if T <=? i then b else 0) /\ (T <= i -> set_up i o) /\ (i < T -> unset o) /\ kept o /\ (0 < b -> rates i b o).
Lemma oc_J0 b0 : forall o1 o2 v, vw_n_epochs v = Some n -> vw_bs v = Some bs -> vw_st v = o0 -> own SetWrapper false b0 v = Ok o1 ->
  own TrainBegin false false (View None 0 false (Some n) (Some bs) o1) = Ok o2 -> Jo 0 o2.
Proof.
  intros o1 o2 v _ _ Hv. cbn. rewrite Hv. destruct known; [|discriminate]. intros [= <-] [= <-]. unfold Jo, it0, unset, kept. cbn.
  split; [reflexivity|]. split; [lia|]. split; [split; reflexivity|]. split; intros ->; reflexivity.
Qed.
Lemma oc_JD i o o' : Jo i o -> own EpochBegin (i =? T) (T <=? i) (ow (Some n) (Some bs) Train i o) = Ok o' -> Do i 0 o'.
Proof.
  intros (A & B1 & C & D). cbn. unfold oc_activate, ow. cbn [vw_bs vw_n_epochs vw_epoch vw_st]. rewrite (proj2 (Nat.eqb_neq bs 0)) by lia.
  destruct (Nat.eqb_spec i T) as [E|E]; intros [= <-]; unfold Do; cbn [oc_iter].
  - split; [rewrite A; destruct (T <=? i); lia|]. split; [|split; [lia|split; [exact D|lia]]]. intros _. unfold set_up. cbn [oc_exp oc_phase].
    split; [do 2 f_equal; lia|]. unfold ph, late. replace ((T <=? W) && (W <? i)) with false; [reflexivity|].
    destruct (Nat.leb_spec T W), (Nat.ltb_spec W i); try reflexivity; lia.
  - split; [rewrite A; destruct (T <=? i); lia|]. split; [intros H; apply B1; lia|]. split; [intros; apply C; lia|]. split; [exact D|lia].
Qed.
Lemma INR_IZR k : IZR (Z.of_nat k) = INR k. Proof. symmetry. apply INR_IZR_INZ. Qed.
Lemma one_rate_kept w x init mid final r r0 r' : one_rate w x init mid final = Ok r -> (init = None -> r' = r0) -> init = None -> or_keep r r' = r0.
Proof. intros H K ->. cbn in H. injection H as <-. cbn. auto. Qed.
Lemma one_rate_value i b init mid final r r0 r' it : T <= i -> it = it0 i + b ->
  one_rate (fst (ph i)) (cos (PI * INR it / IZR (snd (ph i))) + 1) init mid (or_else final init) = Ok r -> (init = None -> r' = r0) ->
  one_cycle_rate init mid final n B T W i b r0 (or_keep r r').
Proof.
  intros Hi Hit H K. unfold one_cycle_rate. destruct init as [p0|]; [|cbn in H; injection H as <-; now apply K].
  split; [lia|]. intros _. unfold one_rate in H. destruct (get_param _ _ _ _ _) as [z|] eqn:Eg; [|discriminate]. cbn in H. injection H as <-. cbn [or_keep].
  unfold get_param in Eg. unfold ph in Eg.
  destruct (late i) eqn:El.
  - unfold late in El. apply andb_prop in El as [E1 E2]. apply Nat.leb_le in E1. apply Nat.ltb_lt in E2. cbn [fst snd] in Eg.
    destruct (or_else final (Some p0)) as [pf|] eqn:Ef; [|discriminate]. destruct mid as [p1|]; [|discriminate]. injection Eg as <-. exists p1. split; [reflexivity|].
    split; [lia|]. intros _. unfold ramp. rewrite mult_IZR, !minus_IZR, !INR_IZR. 
    assert (Epf : match final with Some p => p | None => p0 end = pf) by (destruct final; cbn in Ef; congruence). rewrite Epf.
    replace it with ((i - W - 1) * B + b); [reflexivity|]. rewrite Hit. unfold it0. rewrite (proj2 (Nat.leb_gt i T)) by lia.
    unfold late. rewrite (proj2 (Nat.leb_le T W)), (proj2 (Nat.ltb_lt W i)) by lia. reflexivity.
  - cbn [fst snd] in Eg. destruct mid as [p1|]; [|discriminate]. injection Eg as <-. exists p1. split; [reflexivity|]. split.
    + intros _. unfold ramp. rewrite mult_IZR, !INR_IZR, <- mult_INR. replace it with ((i - T) * B + b); [reflexivity|]. rewrite Hit. unfold it0. rewrite El.
      destruct (Nat.leb_spec i T); [replace (i - T) with 0 by lia|]; reflexivity.
    + intros H. unfold late in El. rewrite (proj2 (Nat.leb_le T W)), (proj2 (Nat.ltb_lt W i)) in El by lia. discriminate.
Qed.
Lemma rate_before init mid final i b r0 r : i < T -> r = or_keep init r0 -> one_cycle_rate init mid final n B T W i b r0 r.
Proof. intros Hi ->. unfold one_cycle_rate. destruct init; cbn; [split; [reflexivity|lia]|reflexivity]. Qed.
Lemma oc_DD i b o o' : Do i b o -> own StepEnd false (T <=? i) (ow (Some n) (Some bs) Train i o) = Ok o' -> Do i (S b) o'.
Proof.
  intros (A & B1 & C & D & _). cbn [one_cycle ow vw_st]. destruct (Nat.leb_spec T i) as [H|H].
  - destruct (B1 H) as [E1 E2]. unfold schedule. cbn [oc_phase oc_iter oc_exp oc_lr oc_mom]. rewrite E2.
    assert (Eit : S (oc_iter o) = it0 i + S b) by (rewrite A; lia).
    destruct (ph i) as [w sc] eqn:Ep. destruct (Z.eqb sc 0); [discriminate|]. cbn [bind].
    destruct (one_rate _ _ (oa_init_lr g) _ _) as [lr|] eqn:El; [|discriminate]. cbn [bind].
    destruct (one_rate _ _ (oa_init_mom g) _ _) as [mom|] eqn:Em; [|discriminate]. cbn [bind]. intros [= <-].
    unfold Do, set_up, kept, rates. cbn [oc_iter oc_exp oc_phase oc_lr oc_mom]. rewrite (proj2 (Nat.leb_le T i)) by lia. rewrite Ep. destruct D as [D1 D2].
    split; [exact Eit|]. split; [intros _; auto|]. split; [lia|]. split.
    + split; intros Hn; eapply one_rate_kept; eauto.
    + intros _. split; (eapply one_rate_value; [exact H|exact Eit| |assumption]); rewrite Ep; cbn [fst snd]; assumption.
  - intros [= <-]. unfold Do. rewrite (proj2 (Nat.leb_gt T i)) in * by lia. split; [exact A|]. split; [exact B1|]. split; [exact C|]. split; [exact D|].
    intros _. destruct (C H) as [C1 C2]. split; apply rate_before; auto.
Qed.
Lemma oc_end md i o o' : own EpochEnd false (T <=? i) (ow (Some n) (Some bs) md i o) = Ok o' ->
  (i <> W /\ o' = o) \/
  (i = W /\ exists it k, oc_exp o = Some (it, k) /\ o' = Oc 0 (oc_exp o) (Some (false, (k - Z.of_nat W) * Z.of_nat it)%Z) (oc_lr o) (oc_mom o)).
Proof.
  cbn [one_cycle ow vw_st vw_epoch]. destruct (Z.eqb_spec (Z.of_nat (S i) - 1) (Z.of_nat W)) as [E|E].
  - destruct (oc_exp o) as [[it k]|] eqn:Ee; [|discriminate]. intros [= <-]. right. split; [lia|]. exists it, k. split; [reflexivity|]. do 4 f_equal. lia.
  - intros [= <-]. left. split; [lia|reflexivity].
Qed.
Lemma oc_DJ i o o' : Do i B o -> own EpochEnd false (T <=? i) (ow (Some n) (Some bs) Train i o) = Ok o' -> Jo (S i) o'.
Proof.
  intros (A & B1 & C & D & _) H. apply oc_end in H. destruct H as [[N ->]|[E (it & k & Ee & ->)]].
  - unfold Jo. split; [|split; [|split; [intros; apply C; lia|exact D]]].
    + rewrite A. unfold it0, late. destruct (Nat.leb_spec i T), (Nat.leb_spec T i), (Nat.leb_spec (S i) T), (Nat.leb_spec T W), (Nat.ltb_spec W i), (Nat.ltb_spec W (S i)); cbn [andb]; try lia.
      all: try (replace (S i - T) with 1 by lia; lia).
      all: try (replace (S i - W - 1) with (S (i - W - 1)) by lia; cbn; lia).
      all: try (replace (S i - T) with (S (i - T)) by lia; cbn; lia).
    + intros Hi. destruct (B1 ltac:(lia)) as [F1 F2]. split; [exact F1|]. rewrite F2. unfold ph, late.
      replace (W <? S i) with (W <? i); [reflexivity|]. destruct (Nat.ltb_spec W i), (Nat.ltb_spec W (S i)); try reflexivity; lia.
  - unfold Jo, set_up, kept, unset. cbn [oc_iter oc_exp oc_phase oc_lr oc_mom]. split; [|split; [|split; [intros; apply C; lia|exact D]]].
    + unfold it0, late. destruct (Nat.leb_spec (S i) T); [reflexivity|]. rewrite (proj2 (Nat.leb_le T W)), (proj2 (Nat.ltb_lt W (S i))) by lia. cbn [andb]. replace (S i - W - 1) with 0 by lia. reflexivity.
    + intros Hi. destruct (B1 ltac:(lia)) as [F1 F2]. split; [exact F1|]. rewrite F1 in Ee. injection Ee as <- <-. unfold ph, late.
      rewrite (proj2 (Nat.leb_le T W)), (proj2 (Nat.ltb_lt W (S i))) by lia. cbn [andb]. reflexivity.
Qed.
Lemma oc_Jb i o o' : Jo (S i) o -> own EpochBegin false (T <=? i) (ow (Some n) (Some bs) Valid i o) = Ok o' -> Jo (S i) o'.
Proof. intros H [= <-]. exact H. Qed.
Lemma oc_Je i o o' : Jo (S i) o -> own EpochEnd false (T <=? i) (ow (Some n) (Some bs) Valid i o) = Ok o' -> Jo (S i) o'.
Proof.
  intros H He. apply oc_end in He. destruct He as [[N ->]|[E (it & k & Ee & ->)]]; [exact H|]. destruct H as (A & B1 & C & D).
  unfold Jo, set_up, kept, unset. cbn [oc_iter oc_exp oc_phase oc_lr oc_mom]. split; [|split; [|split; [exact C|exact D]]].
  - unfold it0, late. destruct (Nat.leb_spec (S i) T); [reflexivity|]. rewrite (proj2 (Nat.leb_le T W)), (proj2 (Nat.ltb_lt W (S i))) by lia. cbn [andb]. replace (S i - W - 1) with 0 by lia. reflexivity.
  - intros Hi. destruct (B1 ltac:(lia)) as [F1 F2]. split; [exact F1|]. rewrite F1 in Ee. injection Ee as <- <-. unfold ph, late.
    rewrite (proj2 (Nat.leb_le T W)), (proj2 (Nat.ltb_lt W (S i))) by lia. cbn [andb]. reflexivity.
Qed.
End OC.

(* ---- SigmoidPanelSmoothnessSchedule ---- *)
Lemma ln10_pos : (0 < ln 10)%R.
Proof. rewrite <- ln_1. apply ln_increasing; lra. Qed.
Lemma pow_log x : (0 < x)%R -> Rpower 10 (log10 x) = x.
Proof. intros H. unfold Rpower, log10. replace (ln x / ln 10 * ln 10)%R with (ln x) by (field; pose proof ln10_pos; lra). now apply exp_ln. Qed.
Lemma ln_div x y : (0 < x)%R -> (0 < y)%R -> ln (x / y) = (ln x - ln y)%R.
Proof. intros Hx Hy. unfold Rdiv. rewrite ln_mult; [|assumption|now apply Rinv_0_lt_compat]. rewrite ln_Rinv by assumption. ring. Qed.
Lemma space_value r0 r1 t : (0 < r0)%R -> (0 < r1)%R -> Rpower 10 (log10 r0 + (log10 r1 - log10 r0) * t) = (r0 * Rpower (r1 / r0) t)%R.
Proof.
  intros H0 H1. unfold Rpower at 1. replace ((log10 r0 + (log10 r1 - log10 r0) * t) * ln 10)%R with (ln r0 + t * ln (r1 / r0))%R.
  - rewrite exp_plus, exp_ln by assumption. reflexivity.
  - rewrite ln_div by assumption. unfold log10. field. pose proof ln10_pos. lra.
Qed.
Lemma nth_logspace r0 r1 n i : (0 < r0)%R -> (0 < r1)%R -> i < n -> nth_error (logspace (log10 r0) (log10 r1) n) i = Some (geometric r0 r1 n i).
Proof.
  intros H0 H1 Hi. unfold logspace. rewrite nth_error_map. rewrite (nth_error_nth' _ 0) by (now rewrite seq_length). rewrite seq_nth by exact Hi. cbn [option_map plus].
  f_equal. unfold geometric. destruct (Nat.eqb n 1); [now apply pow_log|]. rewrite <- space_value by assumption. f_equal. f_equal. unfold Rdiv. ring.
Qed.
Lemma logspace_len a b n : length (logspace a b n) = n.
Proof. unfold logspace. now rewrite map_length, seq_length. Qed.
Lemma get_pos l i : (0 <= i)%Z -> tensor_get l i = match nth_error l (Z.to_nat i) with Some x => Ok x | None => Err IndexError end.
Proof. intros H. unfold tensor_get. rewrite (proj2 (Z.ltb_ge i 0)) by lia. rewrite (proj2 (Z.ltb_ge i 0)) by lia. reflexivity. Qed.
Section SM.
Variables (r0 r1 : R) (n bs T : nat) (o0 : sm).
Hypotheses (Hr0 : (0 < r0)%R) (Hr1 : (0 < r1)%R).
Notation own := (smooth_sched r0 r1).
Notation all x := (repeat x (length (sm_panels o0))).
Lemma sm_skip : forall e f a v v', vw_mode v = vw_mode v' -> vw_epoch v = vw_epoch v' -> vw_n_epochs v = vw_n_epochs v' -> vw_bs v = vw_bs v' -> vw_st v = vw_st v' ->
  own e f a v = own e f a v'.
Proof. intros e f a [md ep sk ne b o] [md' ep' sk' ne' b' o']. cbn. intros -> -> -> -> ->. destruct e; reflexivity. Qed.
Lemma sm_idle : forall e f a v, in_scan e = true -> e <> StepEnd -> own e f a v = Ok (vw_st v).
Proof. intros e f a v H N. destruct e; try discriminate H; reflexivity. Qed.
Lemma map_all {A} (x : R) (l : list A) : map (fun _ => x) l = repeat x (length l).
Proof. induction l; cbn; congruence. Qed.
Definition plan (o : sm) : Prop := T <= n /\ sm_plan o = Some (Z.of_nat T, logspace (log10 r0) (log10 r1) (n - T)).
Definition Js (i : nat) (o : sm) : Prop := length (sm_panels o) = length (sm_panels o0) /\ (T < i -> plan o) /\ (i <= T -> sm_panels o = all r0).
Definition Ds (i b : nat) (o : sm) : Prop := length (sm_panels o) = length (sm_panels o0) /\ (T <= i -> plan o) /\
  sm_panels o = all (if i <? T then r0 else geometric r0 r1 (n - T) (i - T)).
Lemma sm_J0 b0 : forall o1 o2 v, vw_n_epochs v = Some n -> vw_bs v = Some bs -> vw_st v = o0 -> own SetWrapper false b0 v = Ok o1 ->
  own TrainBegin false false (View None 0 false (Some n) (Some bs) o1) = Ok o2 -> Js 0 o2.
Proof.
  intros o1 o2 v _ _ Hv. cbn. rewrite Hv. intros [= <-] [= <-]. unfold Js, set_smooth. cbn. rewrite map_length, map_all. split; [reflexivity|]. split; [lia|reflexivity].
Qed.
Lemma sm_JD i o o' : Js i o -> own EpochBegin (i =? T) (T <=? i) (ow (Some n) (Some bs) Train i o) = Ok o' -> Ds i 0 o'.
Proof.
  intros (A & B1 & C). unfold ow. cbn [smooth_sched]. unfold in_train. cbn [vw_mode is_train vw_st]. rewrite andb_true_r.
  assert (Hp : forall o1, (if i =? T then sm_activate r0 r1 (View (Some Train) (S i) false (Some n) (Some bs) o) else Ok o) = Ok o1 ->
    (T <= i -> plan o1) /\ sm_panels o1 = sm_panels o).
  { intros o1. destruct (Nat.eqb_spec i T) as [E|E].
    - unfold sm_activate. cbn [vw_n_epochs vw_epoch vw_st]. replace (Z.of_nat (S i) - 1)%Z with (Z.of_nat T) by lia. destruct (Z.ltb_spec (Z.of_nat n - Z.of_nat T) 0) as [L|L]; [discriminate|]. intros [= <-]. cbn [sm_plan sm_panels].
      split; [|reflexivity]. intros _. split; [lia|]. cbn [sm_plan]. replace (Z.to_nat (Z.of_nat n - Z.of_nat T)) with (n - T) by lia. reflexivity.
    - intros [= <-]. split; [intros; apply B1; lia|reflexivity]. }
  destruct (if i =? T then _ else _) as [o1|] eqn:E1; [|discriminate]. destruct (Hp o1 eq_refl) as [P1 P2]. cbn [bind]. clear Hp E1.
  destruct (Nat.leb_spec T i) as [H|H].
  - destruct (P1 H) as [Pn P3]. rewrite P3. cbn [vw_epoch]. replace (Z.of_nat (S i) - Z.of_nat T - 1)%Z with (Z.of_nat (i - T)) by lia.
    rewrite get_pos by lia. rewrite Nat2Z.id.
    destruct (nth_error _ (i - T)) as [x|] eqn:Ex; [|discriminate]. cbn [bind]. intros [= <-].
    assert (Hlt : i - T < n - T) by (rewrite <- (logspace_len (log10 r0) (log10 r1) (n - T)); apply nth_error_Some; congruence).
    rewrite nth_logspace in Ex by assumption. injection Ex as <-. unfold Ds, set_smooth. cbn [sm_panels sm_plan]. rewrite map_length, map_all, P2, A.
    split; [reflexivity|]. split; [intros _; split; assumption|]. rewrite (proj2 (Nat.ltb_ge i T)) by lia. reflexivity.
  - intros [= <-]. unfold Ds. rewrite P2. split; [exact A|]. split; [lia|]. rewrite (proj2 (Nat.ltb_lt i T)) by lia. apply C. lia.
Qed.
Lemma sm_DD i b o o' : Ds i b o -> own StepEnd false (T <=? i) (ow (Some n) (Some bs) Train i o) = Ok o' -> Ds i (S b) o'.
Proof. intros H [= <-]. exact H. Qed.
Lemma sm_DJ B i o o' : Ds i B o -> own EpochEnd false (T <=? i) (ow (Some n) (Some bs) Train i o) = Ok o' -> Js (S i) o'.
Proof.
  intros (A & B1 & C) [= <-]. split; [exact A|]. split; [intros; apply B1; lia|]. intros H. cbn [ow vw_st]. rewrite C. now rewrite (proj2 (Nat.ltb_lt i T)) by lia.
Qed.
Lemma sm_Jb i o o' : Js (S i) o -> own EpochBegin false (T <=? i) (ow (Some n) (Some bs) Valid i o) = Ok o' -> Js (S i) o'.
Proof. intros H. cbn. unfold in_train. cbn. rewrite andb_false_r. intros [= <-]. exact H. Qed.
Lemma sm_Je i o o' : Js (S i) o -> own EpochEnd false (T <=? i) (ow (Some n) (Some bs) Valid i o) = Ok o' -> Js (S i) o'.
Proof. intros H [= <-]. exact H. Qed.
End SM.

(* the smoothness schedule never raises *)
Section Quiet.
Context {I P : Type}.
Variables (q : nat) (r0 r1 : R) (n : nat) (bs : option nat).
Notation m := (post_cb q (smooth_sched r0 r1)).
Notation V := (view (list slot * sm)).
Definition ready (v : V) : Prop :=
  vw_n_epochs v = Some n /\ vw_epoch v <= n /\ (vw_mode v = Some Train -> 0 < vw_epoch v) /\
  exists b, nth_error (slots v) q = Some (SPost b) /\
    (b = true -> exists off t, sm_plan (mine v) = Some (Z.of_nat off, t) /\ S off <= vw_epoch v /\ length t = n - off).
Definition is_start (i : item I P) : nat := match i with SetTrain => 1 | _ => 0 end.
Lemma ready1 v (i : item I P) : ready v -> vw_epoch v + is_start i <= n -> quiet1 m v i /\ ready (replay1 m v i) /\ vw_epoch (replay1 m v i) = vw_epoch v + is_start i.
Proof.
  intros (R1 & R2 & R3 & b & R4 & R5) Hn. destruct i; cbn [is_start] in Hn; try (split; [exact Logic.I|]; cbn [replay1 is_start]; rewrite Nat.add_0_r; split; [|reflexivity]; split; [exact R1|]; split; [exact R2|]; split; [exact R3|]; exists b; auto; fail).
  - (* Call *) cbn [quiet1 is_start]. rewrite Nat.add_0_r in *. destruct (warm_ok cb e (pv v)) as (skip & l' & Ew). cbn [replay1]. rewrite post_eq, Ew.
    destruct (Nat.eqb_spec cb q) as [->|Nq].
    + (* the callback itself *)
      assert (Hl : exists b', nth_error l' q = Some (SPost b') /\ (b' = true -> b = true \/ (e = EpochBegin /\ vw_mode v = Some Train))).
      { revert Ew. rewrite warm_cb_eq. cbv zeta. unfold pv at 1. cbn [with_st vw_st]. rewrite R4.
        assert (Hlen : q < length (slots v)) by (apply nth_error_Some; congruence).
        unfold same_as, pv. cbn [with_st vw_st]. destruct e, b;
          try (intros [= _ <-]; eexists; split; [first [exact R4|apply set_same; exact Hlen]|]; auto; discriminate).
        destruct (in_train (with_st v (slots v))) eqn:Et; cbn [andb]; [|intros [= _ <-]; eexists; split; [exact R4|discriminate]].
        assert (Hm : vw_mode v = Some Train) by (unfold in_train, with_st in Et; cbn in Et; destruct (vw_mode v) as [[]|]; try discriminate; reflexivity).
        destruct (all_off (slots v)); intros [= _ <-]; eexists; (split; [first [exact R4|apply set_same; exact Hlen]|]); auto; discriminate. }
      destruct Hl as (b' & Hb' & Hon). rewrite (act_post _ _ _ R4), (act_post _ _ _ Hb').
      assert (Ho : exists o', smooth_sched r0 r1 e (negb b && b') b' (ov v) = Ok o' /\
        (b' = true -> exists off t, sm_plan o' = Some (Z.of_nat off, t) /\ S off <= vw_epoch v /\ length t = n - off)).
      { destruct e; try (eexists; split; [reflexivity|]; intros ->; destruct (Hon eq_refl) as [->|[X _]]; [exact (R5 eq_refl)|discriminate X]).
        - cbn [smooth_sched]. destruct b'.
          + destruct b; cbn [negb andb bind].
            * destruct (R5 eq_refl) as (off & t & E1 & E2 & E3). change (vw_st (ov v)) with (mine v). rewrite E1. destruct (in_train (ov v)) eqn:Et; [|eexists; split; [reflexivity|]; intros _; exists off, t; auto].
              change (vw_epoch (ov v)) with (vw_epoch v). rewrite get_pos by lia.
              destruct (nth_error t _) as [x|] eqn:Ex; [|apply nth_error_None in Ex; lia]. eexists. split; [reflexivity|]. intros _. exists off, t. auto.
            * destruct (Hon eq_refl) as [X|[_ Hm]]; [discriminate|]. specialize (R3 Hm). unfold sm_activate. change (vw_n_epochs (ov v)) with (vw_n_epochs v). change (vw_epoch (ov v)) with (vw_epoch v). rewrite R1.
              rewrite (proj2 (Z.ltb_ge _ 0)) by lia. cbn [bind sm_plan].
              assert (Ep : forall o, exists off t, sm_plan (Sm (Some ((Z.of_nat (vw_epoch v) - 1)%Z, logspace (log10 r0) (log10 r1) (Z.to_nat (Z.of_nat n - (Z.of_nat (vw_epoch v) - 1))))) o) = Some (Z.of_nat off, t) /\ S off <= vw_epoch v /\ length t = n - off).
              { intros o. exists (vw_epoch v - 1). eexists. split; [cbn [sm_plan]; replace (Z.of_nat (vw_epoch v) - 1)%Z with (Z.of_nat (vw_epoch v - 1)) by lia; reflexivity|]. rewrite logspace_len. lia. }
              destruct (in_train (ov v)); [|eexists; split; [reflexivity|]; intros _; apply Ep].
              rewrite get_pos by lia.
              destruct (nth_error (logspace _ _ _) _) as [x|] eqn:Ex; [|apply nth_error_None in Ex; rewrite logspace_len in Ex; lia]. eexists. split; [reflexivity|]. intros _. apply (Ep (map (fun _ => x) (sm_panels (vw_st (ov v))))).
          + rewrite andb_false_r. cbn [bind andb]. eexists. split; [reflexivity|discriminate]. }
      destruct Ho as (o' & -> & Hpl). split; [eauto|]. split; [|reflexivity]. split; [exact R1|]. split; [exact R2|]. split; [exact R3|]. exists b'. split; [exact Hb'|exact Hpl].
    + split; [eauto|]. split; [|reflexivity]. split; [exact R1|]. split; [exact R2|]. split; [exact R3|]. exists b. split; [|exact R5].
      exact (warm_other cb q e (pv v) skip l' b Nq R4 Ew).
  - (* SetTrain *) cbn [replay1 is_start vw_epoch]. split; [exact Logic.I|]. split; [|lia]. split; [exact R1|]. split; [cbn; lia|]. split; [cbn; lia|]. exists b. split; [exact R4|].
    intros Hb. destruct (R5 Hb) as (off & t & E1 & E2 & E3). exists off, t. cbn [vw_epoch]. split; [exact E1|]. split; [lia|exact E3].
  - (* SetEval *) cbn [replay1 is_start vw_epoch]. split; [exact Logic.I|]. split; [|lia]. split; [exact R1|]. split; [exact R2|]. split; [discriminate|]. exists b. auto.
Qed.
Lemma ready_all (t : list (item I P)) : forall v, ready v -> vw_epoch v + list_sum (map is_start t) <= n -> quiet m v t.
Proof.
  induction t as [|i t IH]; intros v H Hn; [exact Logic.I|]. cbn [map] in Hn. change (list_sum (?a :: ?b)) with (a + list_sum b) in Hn.
  destruct (ready1 v i H) as (H1 & H2 & H3); [lia|]. split; [exact H1|]. apply IH; [exact H2|]. rewrite H3. lia.
Qed.
End Quiet.
Section Starts.
Context {I P : Type}.
Variables (q : nat) (r0 r1 : R) (n : nat) (bs : option nat) (c : cfg) (l0 : list slot) (b0 : bool).
Hypothesis Hc : c_cbs c = places l0.
Hypothesis Hq : nth_error l0 q = Some (SPost b0).
Notation m := (post_cb q (smooth_sched r0 r1)).
Notation items := (list (item I P)).
Notation starts := (fun l : items => list_sum (map is_start l)).
Lemma starts_app (a b : items) : starts (a ++ b) = starts a + starts b.
Proof. cbv beta. now rewrite map_app, list_sum_app. Qed.
Lemma starts_on e : starts (on c e) = 0.
Proof. clear Hc. unfold on. induction (c_cbs c) as [|k l IH]; [reflexivity|]. exact IH. Qed.
Lemma starts_scan train skip (s : scan I P) : starts (doc_scan c train skip s) = 0.
Proof. pose proof (si_scan c train skip s) as F. induction F as [|i l H F IH]; [reflexivity|]. cbn [map]. change (list_sum (?a :: ?b)) with (a + list_sum b). rewrite IH. destruct i; cbn in H |- *; try reflexivity; contradiction. Qed.
Lemma starts_epochs (xs : list (epoch I P)) : starts (flat_map (doc_epoch c) xs) = length xs.
Proof.
  induction xs as [|x xs IH]; [reflexivity|]. cbn [flat_map length]. rewrite starts_app, IH. unfold doc_epoch, doc_run. rewrite !starts_app, !starts_on, starts_scan.
  destruct (ep_valid x); [rewrite !starts_app, !starts_on, starts_scan|]; reflexivity.
Qed.
Lemma quiet_begin : forall l e (v : view (list slot * sm)), e = SetWrapper \/ e = TrainBegin -> quiet m v (map (fun k => Call k e) l : items).
Proof.
  induction l as [|k l IH]; intros e v He; [exact Logic.I|]. cbn [map quiet]. split; [|apply IH; exact He].
  cbn [quiet1]. destruct (warm_ok k e (pv v)) as (skip & l' & Ew). rewrite post_eq, Ew. destruct (Nat.eqb k q); [|eauto]. destruct He as [-> | ->]; cbn [smooth_sched]; eauto.
Qed.
Lemma smooth_quiet (xs : list (epoch I P)) o : length xs <= n -> quiet m (View None 0 false (Some n) bs (l0, o)) (doc_fit c xs : items).
Proof.
  intros Hn. unfold doc_fit. rewrite app_assoc. apply quiet_app.
  assert (Q : quiet m (View None 0 false (Some n) bs (l0, o)) (on c SetWrapper ++ on c TrainBegin : items)) by (apply quiet_app; split; apply quiet_begin; auto).
  split; [exact Q|].
  assert (HS : at_start l0 (Some n) bs 0 (pv (replay m (View None 0 false (Some n) bs (l0, o)) (on c SetWrapper ++ on c TrainBegin : items)))).
  { rewrite (proj q _ _ _ Q). apply begin_start; [exact Hc|reflexivity]. }
  destruct HS as (s & p & md & Ev & _ & _ & HP). destruct (HP q) as (H1 & _).
  set (v1 := replay m _ _) in *. assert (HL : nth_error (slots v1) q = Some (SPost false)).
  { pose proof (f_equal vw_st Ev) as E1. cbn [vw_st pv with_st] in E1. rewrite E1, (nth_build _ _ _ _ _ _ _ Hq). cbn [plus]. destruct (p q); [specialize (H1 eq_refl); lia|reflexivity]. }
  assert (E0 : vw_epoch v1 = 0) by exact (f_equal vw_epoch Ev). assert (En : vw_n_epochs v1 = Some n) by exact (f_equal vw_n_epochs Ev).
  apply (ready_all q r0 r1 n).
  - split; [exact En|]. split; [lia|]. split; [|exists false; split; [exact HL|discriminate]].
    intros Hm. exfalso. assert (Hk : vw_mode v1 = None); [|congruence]. unfold v1. clear.
    assert (HM : forall (t : items), Forall (fun i => match i with Call _ _ => True | _ => False end) t -> forall v : view (list slot * sm), vw_mode (replay m v t) = vw_mode v).
    { intros t F. induction F as [|i t H F IH]; intros v; [reflexivity|]. cbn [replay fold_left]. fold (replay m (replay1 m v i) t). rewrite IH. destruct i; try contradiction. cbn [replay1]. now destruct (m cb e v) as [[? ?]|]. }
    rewrite HM; [reflexivity|]. apply Forall_app. split; unfold on; apply Forall_forall; intros i Hi; apply in_map_iff in Hi as (k & <- & _); exact Logic.I.
  - rewrite starts_app, starts_epochs, starts_on, E0. lia.
Qed.
End Starts.
