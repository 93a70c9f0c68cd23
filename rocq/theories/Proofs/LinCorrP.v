(* LinearCorrectionCallback in a fit, and what plain gradient descent does to it. *)
From Coq Require Import Lia Lra NArith.
From Verif Require Import Base.RUtil Model.Fit Model.LinCorr Spec.FitSpec Spec.LinCorrSpec Proofs.FitP Proofs.FitScan Proofs.FitAll.
Open Scope list_scope.

Section F.
Context {S W I : Type}.
Variable opt : R * R -> S -> R * R -> (R * R) * S.
Variable target : W -> option R.
Variable want : I -> option R.
Variable judge : R -> option R -> R -> Prop.
Variable E : env W I R.
Variable h : nat.
Variables c1 c2 : list nat.
Hypothesis N1 : ~ In h c1.
Hypothesis N2 : ~ In h c2.
Hypothesis HT : tame E (c1 ++ c2).
Hypothesis K : steady E (c1 ++ c2) target want judge.
Notation E' := (with_corr opt target E h).
Notation cbs := (c1 ++ h :: c2).
Notation st' := (st (W * corr S) I R).
Notation M' := (M (W * corr S) I R).
Variables (l0 : lin S) (d0 : option (list (R * R))) (m0 : option mode).

(* the callback, read off the trace: mode, layout, prediction as made and as it is now, correction, data; and what must hold *)
Record au := Au { a_mode : option mode; a_item : option I; a_raw : option R; a_cur : option R; a_lin : lin S; a_data : option (list (R * R)); a_ok : Prop }.
Definition wanted (a : au) : option R := match a_item a with Some x => want x | None => None end.
Definition astep (a : au) (i : item I R) : au :=
  match i with
  | SetTrain => Au (Some Train) (a_item a) (a_raw a) (a_cur a) (a_lin a) (a_data a) (a_ok a)
  | SetEval => Au (Some Valid) (a_item a) (a_raw a) (a_cur a) (a_lin a) (a_data a) (a_ok a)
  | Loaded x => Au (a_mode a) (Some x) (a_raw a) (a_cur a) (a_lin a) (a_data a) (a_ok a)
  | Predicted p => Au (a_mode a) (a_item a) p p (a_lin a) (a_data a) (a_ok a)
  | Loss x => Au (a_mode a) (a_item a) (a_raw a) (a_cur a) (a_lin a) (a_data a) (a_ok a /\ exists p, a_cur a = Some p /\ judge p (wanted a) x)
  | Call k e =>
      if Nat.eqb k h then
        match e with
        | VolumeBatchBegin => if is_train (a_mode a) then Au (a_mode a) (a_item a) (a_raw a) (a_cur a) (a_lin a) (Some []) (a_ok a) else a
        | X0PredEnd =>
            let cur := match a_raw a with Some p => Some (linear (a_lin a) p) | None => None end in
            if is_train (a_mode a) then
              match a_raw a, a_data a, wanted a with
              | Some p, Some d, Some t => Au (a_mode a) (a_item a) (a_raw a) cur (a_lin a) (Some (d ++ [(p, t)])) (a_ok a)
              | _, _, _ => Au (a_mode a) (a_item a) (a_raw a) cur (a_lin a) (a_data a) False
              end
            else Au (a_mode a) (a_item a) (a_raw a) cur (a_lin a) (a_data a) (a_ok a /\ a_raw a <> None)
        | BackwardsEnd => match a_data a with Some d => Au (a_mode a) (a_item a) (a_raw a) (a_cur a) (corr_train opt d (a_lin a)) (a_data a) (a_ok a) | None => a end
        | _ => a
        end
      else a
  | _ => a
  end.
Definition arun (a : au) (l : list (item I R)) : au := fold_left astep l a.
Definition au0 : au := Au m0 None None None l0 d0 True.
Lemma arun_snoc l i : arun au0 (l ++ [i]) = astep (arun au0 l) i.
Proof. unfold arun. now rewrite fold_left_app. Qed.

(* x: the layout that is loaded, if the target is still its target; cur: fit_params.pred is the current prediction; raw: and still as made; md: the mode *)
Definition inv (x : option I) (cur raw md : bool) (s : st') : Prop :=
  let a := arun au0 (s_tr s) in
  a_ok a /\ snd (s_w s) = Corr (a_lin a) (a_data a) /\ (md = true -> f_state (s_fp s) = a_mode a) /\
  match x with Some y => a_item a = Some y /\ target (fst (s_w s)) = want y | None => True end /\
  (cur = true -> f_pred (s_fp s) = a_cur a) /\ (raw = true -> a_cur a = a_raw a).
Definition okp {A} (R R' : st' -> Prop) (m : M' A) : Prop := forall s a s', m s = (Ok a, s') -> R s -> R' s'.
Lemma seq_ok {A B} (m : M' A) (k : A -> M' B) s b s' : seqM m k s = (Ok b, s') -> exists a s1, m s = (Ok a, s1) /\ k a s1 = (Ok b, s').
Proof. unfold seqM. destruct (m s) as [[a|e] s1]; [|discriminate]. intros H. now exists a, s1. Qed.
Lemma okp_bind {A B} R1 R2 R3 (m : M' A) (k : A -> M' B) : okp R1 R2 m -> (forall a, okp R2 R3 (k a)) -> okp R1 R3 (seqM m k).
Proof. intros H1 H2 s b s' H HR. apply seq_ok in H as (a & s1 & H3 & H4). exact (H2 a _ _ _ H4 (H1 _ _ _ H3 HR)). Qed.
Lemma okp_each {A} R (f : A -> M' unit) l : (forall a, In a l -> okp R R (f a)) -> okp R R (each f l).
Proof.
  induction l as [|a l IH]; intros H; cbn [each]; [now intros s u s' [= <- <-]|]. apply okp_bind with R; [apply H; now left|intros _; apply IH; intros b Hb; apply H; now right].
Qed.
Lemma okp_ret {A} R (a : A) : okp R R (ret a). Proof. now intros s b s' [= <- <-]. Qed.
Lemma okp_getf {A} R (g : fp Rdefinitions.R -> A) : okp R R (getf g). Proof. now intros s b s' [= <- <-]. Qed.
Lemma okp_raise {A} R R' e : okp R R' (@raise _ I Rdefinitions.R A e). Proof. discriminate. Qed.
Lemma okp_weak {A} (R1 R2 R3 R4 : st' -> Prop) (m : M' A) : (forall s, R1 s -> R2 s) -> (forall s, R3 s -> R4 s) -> okp R2 R3 m -> okp R1 R4 m.
Proof. intros H1 H2 H s a s' Hm HR. apply H2. exact (H _ _ _ Hm (H1 _ HR)). Qed.
Lemma inv_none x c r s : inv x c r true s -> inv None false false true s.
Proof. intros (A & B & C & D & F & G). split; [exact A|]. split; [exact B|]. split; [exact C|]. split; [exact Logic.I|]. split; discriminate. Qed.

(* items the automaton does not react to *)
Definition dull (i : item I R) : bool := match i with
  | NewInferrer | Generated _ | Crossed | Scattered | Added | Mean _ | ZeroGrad | Backward _ | Step | Conform => true | _ => false end.
Lemma inv_emit x c r m i : (forall a, astep a i = a) -> okp (inv x c r m) (inv x c r m) (emit i).
Proof. intros Hi s u s' [= <- <-] H. unfold inv in *. cbn [s_tr s_w s_fp]. now rewrite arun_snoc, Hi. Qed.
Lemma dull_step i a : dull i = true -> astep a i = a. Proof. now destruct i. Qed.
Lemma lift_c_inv {A} (g : W -> res A * W) w r (w' : W * corr S) : lift_c g w = (r, w') -> exists v, g (fst w) = (r, v) /\ w' = (v, snd w).
Proof. unfold lift_c. destruct (g (fst w)) as [q v]. intros [= <- <-]. eauto. Qed.
(* world steps that keep the target *)
Lemma inv_world_x x c r m {A} (g : W -> res A * W) : (forall w a w', g w = (Ok a, w') -> target w' = target w) -> okp (inv x c r m) (inv x c r m) (world (lift_c g) : M' A).
Proof.
  intros Hg s a s'. unfold world. destruct (lift_c g (s_w s)) as [q w] eqn:Eg. intros [= -> <-] H. apply lift_c_inv in Eg as (v & Eg & ->).
  unfold inv in *. cbn [s_tr s_w s_fp fst snd]. rewrite (Hg _ _ _ Eg). exact H.
Qed.
Lemma inv_world_any c r m {A} (g : W -> res A * W) : okp (inv None c r m) (inv None c r m) (world (lift_c g) : M' A).
Proof.
  intros s a s'. unfold world. destruct (lift_c g (s_w s)) as [q w] eqn:Eg. intros [= -> <-] H. apply lift_c_inv in Eg as (v & Eg & ->). exact H.
Qed.
Lemma inv_act_x x c r m i g : op E i = Some g -> match i with NewInferrer | Generated _ | Crossed | Scattered | Added => True | _ => False end ->
  okp (inv x c r m) (inv x c r m) (act i (lift_c g)).
Proof.
  intros Ho Hi. eapply okp_bind; [apply inv_emit; intros a; apply dull_step; now destruct i|intros _]. apply inv_world_x. intros w [] w' Hw. exact (sd_op _ _ _ _ _ K i g w w' Ho Hi Hw).
Qed.
Lemma inv_act_any i g : dull i = true -> okp (inv None false false true) (inv None false false true) (act i (lift_c g)).
Proof. intros Hi. eapply okp_bind; [apply inv_emit; intros a; now apply dull_step|intros _]. apply inv_world_any. Qed.
Lemma inv_modf x c r m (g : fp R -> fp R) : (forall f, f_state (g f) = f_state f) -> (forall f, c = true -> f_pred (g f) = f_pred f) -> okp (inv x c r m) (inv x c r m) (modf g).
Proof.
  intros H1 H2 s a s' [= <- <-] (A & B & C & D & F & G). unfold inv. cbn [s_tr s_w s_fp]. split; [exact A|]. split; [exact B|]. split; [intros Hm; rewrite H1; auto|].
  split; [exact D|]. split; [intros Hc; rewrite H2 by exact Hc; auto|exact G].
Qed.
(* the other callbacks *)
Lemma in_others k : In k cbs -> k <> h -> In k (c1 ++ c2).
Proof. intros Hk N. apply in_app_iff in Hk as [Hk|[Hk|Hk]]; [apply in_app_iff; now left|congruence|apply in_app_iff; now right]. Qed.
Lemma step_other a k e : k <> h -> astep a (Call k e) = a.
Proof. intros N. cbn [astep]. apply Nat.eqb_neq in N. now rewrite N. Qed.
Lemma inv_other x c r m k e : In k (c1 ++ c2) -> k <> h -> okp (inv x c r m) (inv x c r m) (seqM (emit (Call k e)) (fun _ => run_cb E' k e)).
Proof.
  intros Hk N. eapply okp_bind; [apply inv_emit; intros a; now apply step_other|intros _]. intros s u s'. unfold run_cb. cbn [with_corr e_cb].
  apply Nat.eqb_neq in N. rewrite N. destruct s as [f [w q] tr]. cbn [s_fp s_w s_tr]. destruct (e_cb E k e (f, w)) as [y [f1 w1]] eqn:Ec. intros [= -> <-]. destruct u.
  destruct (HT _ _ _ _ _ _ Hk Ec) as (T1 & _). destruct (sd_cb _ _ _ _ _ K _ _ _ _ _ _ Hk Ec) as [T2 T3].
  intros (A & B & C & D & F & G). unfold inv in *. cbn [s_tr s_w s_fp fst snd] in *. split; [exact A|]. split; [exact B|]. split; [now rewrite T1|]. split; [now rewrite T2|]. split; [now rewrite T3|exact G].
Qed.
(* this callback, at an event to which it does not react *)
Definition deaf (e : event) : bool := match e with VolumeBatchBegin | X0PredEnd | BackwardsEnd => false | _ => true end.
Lemma inv_deaf x c r m e : deaf e = true -> okp (inv x c r m) (inv x c r m) (seqM (emit (Call h e)) (fun _ => run_cb E' h e)).
Proof.
  intros He. eapply okp_bind; [apply inv_emit; intros a; cbn [astep]; rewrite Nat.eqb_refl; now destruct e|intros _]. intros s u s'. unfold run_cb. cbn [with_corr e_cb].
  rewrite Nat.eqb_refl. destruct s as [f [w q] tr]. cbn [s_fp s_w s_tr corr_cb]. destruct e; try discriminate He; intros [= <- <-] H; exact H.
Qed.
Lemma call_deaf x c r m e : deaf e = true -> okp (inv x c r m) (inv x c r m) (call E' cbs e).
Proof. intros He. apply okp_each. intros k Hk. destruct (Nat.eq_dec k h) as [->|N]; [now apply inv_deaf|apply inv_other; auto using in_others]. Qed.
Lemma each_app {A} (f : A -> M' unit) l m s : each f (l ++ m) s = seqM (each f l) (fun _ => each f m) s.
Proof.
  revert s. induction l as [|a l IH]; intros s; cbn [each app]; [reflexivity|]. unfold seqM at 1 2 3. destruct (f a s) as [[[]|e] s1]; [|reflexivity].
  rewrite IH. reflexivity.
Qed.
(* a call: the callbacks before, this one, those behind *)
Lemma call_at R1 R2 e : (forall k, In k (c1 ++ c2) -> k <> h -> okp R1 R1 (seqM (emit (Call k e)) (fun _ => run_cb E' k e))) ->
  (forall k, In k (c1 ++ c2) -> k <> h -> okp R2 R2 (seqM (emit (Call k e)) (fun _ => run_cb E' k e))) ->
  okp R1 R2 (seqM (emit (Call h e)) (fun _ => run_cb E' h e)) -> okp R1 R2 (call E' cbs e).
Proof.
  intros H1 H2 H s u s'. unfold call. rewrite each_app. cbn [each]. revert s u s'. change (okp R1 R2 (seqM (each (fun k => seqM (emit (Call k e)) (fun _ => run_cb E' k e)) c1) (fun _ =>
    seqM (seqM (emit (Call h e)) (fun _ => run_cb E' h e)) (fun _ => each (fun k => seqM (emit (Call k e)) (fun _ => run_cb E' k e)) c2)))).
  apply okp_bind with R1; [apply okp_each; intros k Hk; apply H1; [apply in_app_iff; now left|intros ->; contradiction]|intros _].
  apply okp_bind with R2; [exact H|intros _]. apply okp_each. intros k Hk. apply H2; [apply in_app_iff; now right|intros ->; contradiction].
Qed.
Lemma call_begin : okp (inv None false false true) (inv None false false true) (call E' cbs VolumeBatchBegin).
Proof.
  apply call_at; try (intros; now apply inv_other). intros s u s' H. unfold seqM, emit, run_cb in H. cbn [with_corr e_cb s_fp s_w s_tr] in H. rewrite Nat.eqb_refl in H.
  destruct s as [f [w q] tr]. cbn [s_fp s_w s_tr corr_cb] in H. intros (A & B & C & _). cbn [s_fp s_w s_tr fst snd] in *. specialize (C eq_refl).
  unfold inv. destruct (is_train (f_state f)) eqn:Em; injection H as _ <-; cbn [s_fp s_w s_tr fst snd]; rewrite arun_snoc; cbn [astep]; rewrite Nat.eqb_refl, <- C, Em; cbn; rewrite B; (split; [exact A|]; split; [reflexivity|]; split; [auto|]; split; [exact Logic.I|]; split; discriminate).
Qed.
Lemma call_back : okp (inv None false false true) (inv None false false true) (call E' cbs BackwardsEnd).
Proof.
  apply call_at; try (intros; now apply inv_other). intros s u s' H. unfold seqM, emit, run_cb in H. cbn [with_corr e_cb s_fp s_w s_tr] in H. rewrite Nat.eqb_refl in H.
  destruct s as [f [w q] tr]. cbn [s_fp s_w s_tr corr_cb] in H. intros (A & B & C & _). cbn [s_fp s_w s_tr fst snd] in *. specialize (C eq_refl).
  subst q. cbn [c_data c_lin] in H. unfold inv. destruct (a_data (arun au0 tr)) as [[|p d]|] eqn:Ed; try discriminate H. injection H as _ <-. cbn [s_fp s_w s_tr fst snd]. rewrite arun_snoc. cbn [astep]. rewrite Nat.eqb_refl, Ed.
  cbn. split; [exact A|]. split; [reflexivity|]. split; [auto|]. split; [exact Logic.I|]. split; discriminate.
Qed.
Lemma call_pred x : okp (inv (Some x) true true true) (inv (Some x) true false true) (call E' cbs X0PredEnd).
Proof.
  apply call_at; try (intros; now apply inv_other). intros s u s' H. unfold seqM, emit, run_cb in H. cbn [with_corr e_cb s_fp s_w s_tr] in H. rewrite Nat.eqb_refl in H.
  destruct s as [f [w q] tr]. cbn [s_fp s_w s_tr corr_cb] in H. intros (A & B & C & (D1 & D2) & F & G). cbn [s_fp s_w s_tr fst snd] in *. specialize (C eq_refl). specialize (F eq_refl). specialize (G eq_refl). rewrite G in F.
  subst q. cbn [c_data c_lin] in H. unfold inv. destruct (f_pred f) as [p|] eqn:Ep; [|discriminate]. destruct (is_train (f_state f)) eqn:Em.
  - destruct (a_data (arun au0 tr)) as [d|] eqn:Ed; [|discriminate]. destruct (target w) as [t|] eqn:Et; [|discriminate]. injection H as _ <-. cbn [s_fp s_w s_tr fst snd]. rewrite arun_snoc. cbn [astep]. unfold wanted. rewrite Nat.eqb_refl, <- C, Em, <- F, Ed, D1, <- D2.
    cbn. split; [exact A|]. split; [reflexivity|]. split; [auto|]. split; [split; [reflexivity|congruence]|]. split; [reflexivity|discriminate].
  - injection H as _ <-. cbn [s_fp s_w s_tr fst snd]. rewrite arun_snoc. cbn [astep]. rewrite Nat.eqb_refl, <- C, Em, <- F. cbn. split; [split; [exact A|discriminate]|]. split; [reflexivity|]. split; [auto|]. split; [auto|]. split; [reflexivity|discriminate].
Qed.

Notation I0 := (inv None false false true).
Notation I1 x := (inv (Some x) false false true).
(* one volume *)
Lemma inv_mu x : okp (I1 x) (I1 x) (mu_batch E' cbs).
Proof.
  unfold mu_batch. eapply okp_bind; [apply okp_getf|intros n]. eapply okp_bind; [apply (inv_act_x (Some x) _ _ _ (Generated n) (e_generate E n)); [reflexivity|exact Logic.I]|intros _].
  eapply okp_bind; [now apply call_deaf|intros _]. eapply okp_bind; [apply (inv_act_x (Some x) _ _ _ Crossed (e_cross E)); [reflexivity|exact Logic.I]|intros _].
  eapply okp_bind; [apply (inv_act_x (Some x) _ _ _ Scattered (e_scatter E)); [reflexivity|exact Logic.I]|intros _].
  eapply okp_bind; [now apply call_deaf|intros _]. eapply okp_bind; [apply (inv_act_x (Some x) _ _ _ Added (e_add E)); [reflexivity|exact Logic.I]|intros _]. now apply call_deaf.
Qed.
Lemma inv_loss x : okp (inv (Some x) true false true) (I1 x) (add_loss E').
Proof.
  assert (Hw : forall s, inv (Some x) true false true s -> I1 x s).
  { intros s (A & B & C & D & _). split; [exact A|]. split; [exact B|]. split; [exact C|]. split; [exact D|]. split; discriminate. }
  intros s u s' H HI. unfold add_loss in H. apply seq_ok in H as (md & s1 & H1 & H). injection H1 as Hmd <-. apply seq_ok in H as (p0 & s1 & H1 & H). injection H1 as Hp <-.
  assert (Hret : ret tt s = (Ok u, s') -> I1 x s') by (intros [= <- <-]; auto).
  assert (Hrun : forall g p, e_loss E = Some g -> f_pred (s_fp s) = Some p ->
    seqM (world (lift_c (g p))) (fun l => seqM (emit (Loss l)) (fun _ => modf (fun f => set_loss (match f_loss f with None => Some l | Some v => Some (v + l)%R end) f))) s = (Ok u, s') -> I1 x s').
  { intros g p Eg Ep H0. apply seq_ok in H0 as (l & s1 & H1 & H0). unfold world in H1. destruct (lift_c (g p) (s_w s)) as [q w] eqn:El. injection H1 as -> <-. apply lift_c_inv in El as (v & El & ->).
    destruct (sd_loss _ _ _ _ _ K _ _ _ _ _ Eg El) as [J1 J2]. apply seq_ok in H0 as ([] & s2 & H2 & H0). injection H2 as <-. injection H0 as _ <-.
    destruct HI as (A & B & C & (D1 & D2) & F & _). unfold inv. cbn [s_fp s_w s_tr fst snd] in *. rewrite arun_snoc. cbn [astep a_ok a_lin a_data a_mode a_item a_cur a_raw]. specialize (F eq_refl).
    split; [split; [exact A|]; exists p; split; [congruence|unfold wanted; rewrite D1; congruence]|]. split; [exact B|]. split; [exact C|]. split; [split; [exact D1|congruence]|]. split; discriminate. }
  cbn [with_corr e_loss] in H. destruct md as [[| |]|]; destruct (e_loss E) as [g|] eqn:Eg; destruct p0 as [p|]; try (exact (Hret H)); apply (Hrun g p eq_refl Hp); exact H.
Qed.
Lemma inv_volume x : okp (I1 x) (I1 x) (scan_volume E' cbs).
Proof.
  unfold scan_volume. eapply okp_bind; [apply inv_modf; [reflexivity|discriminate]|intros _]. eapply okp_bind; [apply okp_getf|intros n]. eapply okp_bind; [apply okp_getf|intros b].
  eapply okp_bind with (R2 := I1 x); [unfold quotient; destruct (Nat.eqb b 0); [apply okp_raise|apply okp_ret]|intros k].
  eapply okp_bind; [apply (inv_act_x (Some x) _ _ _ NewInferrer (e_inferrer E)); [reflexivity|exact Logic.I]|intros _]. eapply okp_bind; [apply okp_each; intros ? _; apply inv_mu|intros _].
  eapply okp_bind; [now apply call_deaf|intros _]. eapply okp_bind; [apply (@inv_world_x (Some x) false false true (option R) (e_predict E)); exact (sd_predict _ _ _ _ _ K)|intros p].
  apply okp_bind with (fun s => I1 x s /\ f_pred (s_fp s) = p).
  { intros s u s' H HI. split; [revert H HI; apply inv_modf; [reflexivity|discriminate]|now injection H as _ <-]. }
  intros _. apply okp_bind with (inv (Some x) true true true).
  { intros s u s' [= <- <-] [(A & B & C & D & _) Hp]. unfold inv. cbn [s_fp s_w s_tr]. rewrite arun_snoc. cbn [astep a_ok a_lin a_data a_mode a_item a_cur a_raw].
    split; [exact A|]. split; [exact B|]. split; [exact C|]. split; [exact D|]. split; [intros _; exact Hp|reflexivity]. }
  intros _. eapply okp_bind; [apply call_pred|intros _]. apply inv_loss.
Qed.
Lemma inv_need {A} R (o : option A) e : okp R R (need o e). Proof. destruct o; [apply okp_ret|apply okp_raise]. Qed.
Lemma inv_multiple R n b : okp R R (is_multiple n b). Proof. unfold is_multiple. destruct (Nat.eqb b 0); [apply okp_raise|apply okp_ret]. Qed.
Lemma inv_begin i : okp I0 I0 (batch_begin E' cbs i).
Proof.
  unfold batch_begin. eapply okp_bind; [apply okp_getf|intros md]. destruct (is_test md); [apply okp_ret|]. eapply okp_bind; [apply okp_getf|intros b]. eapply okp_bind; [apply inv_need|intros b'].
  eapply okp_bind; [apply inv_multiple|intros [|]]; [|apply okp_ret]. eapply okp_bind; [apply inv_modf; [reflexivity|discriminate]|intros _; apply call_begin].
Qed.
Lemma inv_update : okp I0 I0 (update E' cbs).
Proof.
  unfold update. eapply okp_bind; [exact (inv_act_any ZeroGrad (e_zero_grad E) eq_refl)|intros _]. eapply okp_bind; [now apply call_deaf|intros _]. eapply okp_bind; [apply okp_getf|intros l].
  apply okp_bind with I0; [destruct l as [l|]; [exact (inv_act_any (Backward l) (e_backward E l) eq_refl)|apply okp_ret]|intros _]. eapply okp_bind; [apply call_back|intros _].
  eapply okp_bind; [apply okp_getf|intros k]. eapply okp_bind; [apply okp_getf|intros sk]. apply okp_bind with I0; [destruct k as [k|]; [destruct sk; [apply okp_ret|exact (inv_act_any Step (e_step E) eq_refl)]|apply okp_ret]|intros _].
  eapply okp_bind; [now apply call_deaf|intros _]. exact (inv_act_any Conform (e_conform E) eq_refl).
Qed.
Lemma inv_end d i : okp I0 I0 (batch_end E' cbs d i).
Proof.
  unfold batch_end. eapply okp_bind; [apply okp_getf|intros md]. destruct (is_test md); [apply okp_ret|]. eapply okp_bind; [apply okp_getf|intros b]. eapply okp_bind; [apply inv_need|intros b'].
  eapply okp_bind; [apply inv_multiple|intros [|]]; [|apply okp_ret]. eapply okp_bind; [apply okp_getf|intros l]. cbv zeta. eapply okp_bind; [apply inv_modf; [reflexivity|discriminate]|intros _].
  eapply okp_bind; [apply inv_emit; reflexivity|intros _]. eapply okp_bind; [now apply call_deaf|intros _]. eapply okp_bind; [apply okp_getf|intros md']. apply okp_bind with I0; [destruct (is_train md'); [apply inv_update|apply okp_ret]|intros _].
  eapply okp_bind; [apply okp_getf|intros ?]. eapply okp_bind; [apply inv_need|intros ?]. apply okp_ret.
Qed.
Lemma inv_scan d : forall n i, okp I0 I0 (scan_from E' cbs d n i).
Proof.
  induction n as [|n IH]; intros i; cbn [scan_from]; [apply okp_ret|]. eapply okp_bind; [exact (@inv_world_any false false true I (e_next E d i))|intros x]. eapply okp_bind; [apply inv_modf; [reflexivity|discriminate]|intros _].
  eapply okp_bind; [apply inv_begin|intros _]. apply okp_bind with (I1 x).
  { intros s u s' H (A & B & C & _). unfold act, seqM, emit, world in H. cbn [s_fp s_w s_tr with_corr e_load] in H. destruct (lift_c (e_load E x) (s_w s)) as [q w] eqn:El. injection H as -> <-. apply lift_c_inv in El as (v & El & ->). destruct u.
    unfold inv. cbn [s_fp s_w s_tr fst snd]. rewrite arun_snoc. cbn [astep a_ok a_lin a_data a_mode a_item a_cur a_raw]. split; [exact A|]. split; [exact B|]. split; [exact C|]. split; [split; [reflexivity|exact (sd_load _ _ _ _ _ K _ _ _ El)]|]. split; discriminate. }
  intros _. eapply okp_bind; [now apply call_deaf|intros _]. eapply okp_bind; [apply inv_volume|intros _]. eapply okp_bind with (R2 := I0); [apply (okp_weak (I1 x) (I1 x) (I1 x) I0); [auto|intros s Hs; exact (inv_none _ _ _ _ Hs)|now apply call_deaf]|intros _].
  eapply okp_bind; [apply inv_end|intros [|]]; [apply okp_ret|apply IH].
Qed.
Lemma inv_run d : okp I0 I0 (run_epoch E' cbs d).
Proof. unfold run_epoch, scan_volumes. eapply okp_bind; [now apply call_deaf|intros _]. eapply okp_bind; [apply inv_scan|intros _; now apply call_deaf]. Qed.
Lemma inv_switch i md g : (i = SetTrain /\ md = Train) \/ (i = SetEval /\ md = Valid) -> okp I0 I0 (seqM (act i (lift_c g)) (fun _ => modf (set_state (Some md)))).
Proof.
  intros Hi s u s' H (A & B & _). unfold act, seqM, emit, world, modf in H. cbn [s_fp s_w s_tr] in H. destruct (lift_c g (s_w s)) as [q w] eqn:El. apply lift_c_inv in El as (v & El & ->). destruct q as [[]|]; [|discriminate]. injection H as _ <-.
  unfold inv. cbn [s_fp s_w s_tr fst snd]. rewrite arun_snoc. destruct Hi as [[-> ->]|[-> ->]]; cbn [astep a_ok a_lin a_data a_mode a_item a_cur a_raw set_state f_state]; (split; [exact A|]; split; [exact B|]; split; [reflexivity|]; split; [exact Logic.I|]; split; discriminate).
Qed.
Lemma assoc {A B C} (m : M' A) (f : A -> M' B) (g : B -> M' C) s : seqM m (fun a => seqM (f a) g) s = seqM (seqM m f) g s.
Proof. unfold seqM. destruct (m s) as [[a|e] s1]; reflexivity. Qed.
Lemma okp_switch {A} i md g (k : M' A) : (i = SetTrain /\ md = Train) \/ (i = SetEval /\ md = Valid) -> okp I0 I0 k -> okp I0 I0 (seqM (act i (lift_c g)) (fun _ => seqM (modf (set_state (Some md))) (fun _ => k))).
Proof.
  intros Hi Hk s a s' H. rewrite (assoc (act i (lift_c g)) (fun _ => modf (set_state (Some md))) (fun _ => k)) in H. revert s a s' H. change (okp I0 I0 (seqM (seqM (act i (lift_c g)) (fun _ => modf (set_state (Some md)))) (fun _ => k))).
  eapply okp_bind; [now apply inv_switch|intros _; exact Hk].
Qed.
Lemma inv_epochs validate n : okp I0 I0 (fit_epochs E' cbs validate n).
Proof.
  induction n as [|n IH]; cbn [fit_epochs]; [apply okp_ret|]. apply okp_bind with I0.
  - unfold fit_epoch. eapply okp_bind; [apply inv_modf; [reflexivity|discriminate]|intros _]. apply (okp_switch SetTrain Train (e_train E)); [now left|].
    eapply okp_bind; [apply inv_run|intros _]. destruct validate; [|apply okp_ret]. apply (okp_switch SetEval Valid (e_eval E)); [now right|]. apply inv_run.
  - intros _. eapply okp_bind; [apply okp_getf|intros [|]]; [apply okp_ret|exact IH].
Qed.
Lemma inv_body validate : okp I0 I0 (fit_body E' cbs validate).
Proof.
  unfold fit_body. eapply okp_bind; [now apply call_deaf|intros _]. eapply okp_bind; [now apply call_deaf|intros _]. eapply okp_bind; [apply okp_getf|intros n]. eapply okp_bind; [apply inv_need|intros k].
  eapply okp_bind; [apply inv_epochs|intros _; now apply call_deaf].
Qed.

(* reading the documented trace *)
Variables bs n_mu mu_bs : nat.
Notation c := (Cfg cbs bs n_mu mu_bs).
Lemma arun_app a l m : arun a (l ++ m) = arun (arun a l) m. Proof. apply fold_left_app. Qed.
Lemma others_run l a e : ~ In h l -> arun a (map (fun k => Call k e) l) = a.
Proof. revert a. induction l as [|k l IH]; intros a Hl; [reflexivity|]. cbn [map arun fold_left]. rewrite step_other by (intros ->; apply Hl; now left). apply IH. intros Hi. apply Hl. now right. Qed.
Lemma on_run a e : arun a (on c e) = astep a (Call h e).
Proof. unfold on. cbn [c_cbs]. rewrite map_app, arun_app, (others_run c1 _ _ N1). cbn [map]. change (arun a (Call h e :: ?l)) with (arun (astep a (Call h e)) l). now apply others_run. Qed.
Lemma on_deaf a e : deaf e = true -> arun a (on c e) = a.
Proof. intros He. rewrite on_run. cbn [astep]. rewrite Nat.eqb_refl. now destruct e. Qed.
Lemma mu_run a : arun a (doc_mu c) = a.
Proof. unfold doc_mu. rewrite !arun_app. cbn [arun fold_left astep]. now rewrite !on_deaf. Qed.
Lemma mus_run a n : arun a (concat (repeat (doc_mu c) n)) = a.
Proof. induction n as [|n IH]; [reflexivity|]. cbn [repeat concat]. now rewrite arun_app, mu_run. Qed.
Definition vol_run (a : au) (v : vol I R) : au :=
  let a := astep (Au (a_mode a) (Some (v_item v)) (v_pred v) (v_pred v) (a_lin a) (a_data a) (a_ok a)) (Call h X0PredEnd) in
  match v_loss v with Some x => astep a (Loss x) | None => a end.
Lemma doc_vol_run a v : arun a (doc_vol c v) = vol_run a v.
Proof.
  unfold doc_vol. rewrite !arun_app, mus_run. rewrite (on_deaf _ VolumeBegin) by reflexivity. rewrite (on_deaf _ X0PredBegin) by reflexivity. rewrite (on_deaf _ VolumeEnd) by reflexivity. rewrite on_run. unfold vol_run.
  destruct (v_loss v); reflexivity.
Qed.
(* outside training *)
Lemma vols_valid vs : forall a, is_train (a_mode a) = false -> a_ok (arun a (flat_map (doc_vol c) vs)) ->
  let a' := arun a (flat_map (doc_vol c) vs) in a_ok a /\ a_mode a' = a_mode a /\ a_lin a' = a_lin a /\ a_data a' = a_data a /\ Forall (judged want judge (a_lin a)) vs.
Proof.
  induction vs as [|v vs IH]; intros a Hm; [cbn; auto 10|]. cbn [flat_map]. rewrite arun_app, doc_vol_run. intros Ho.
  assert (Hv : is_train (a_mode (vol_run a v)) = false) by (unfold vol_run; cbn [astep a_mode]; rewrite Nat.eqb_refl, Hm; destruct (v_loss v); exact Hm).
  destruct (IH _ Hv Ho) as (A & B & C & D & F). cbv zeta. rewrite B, C, D. unfold vol_run in *. cbn [astep a_mode] in *. rewrite Nat.eqb_refl, Hm in *. cbn [a_raw a_lin a_data a_ok a_mode a_cur a_item] in *.
  destruct (v_loss v) as [x|] eqn:El; cbn [astep a_raw a_lin a_data a_ok a_mode a_cur a_item] in *.
  - destruct A as [[A1 A2] (p & A3 & A4)]. destruct (v_pred v) as [q|] eqn:Ep; [|now elim A2]. split; [exact A1|]. repeat (split; [reflexivity|]). constructor; [|exact F].
    exists q. split; [exact Ep|]. intros y Hy. unfold wanted in A4. cbn [a_item] in A4. injection A3 as <-. rewrite El in Hy. injection Hy as <-. exact A4.
  - destruct A as [A1 A2]. destruct (v_pred v) as [q|] eqn:Ep; [|now elim A2]. split; [exact A1|]. repeat (split; [reflexivity|]). constructor; [|exact F]. exists q. split; [exact Ep|]. rewrite El. discriminate.
Qed.
Lemma vols_train vs : forall a d, is_train (a_mode a) = true -> a_data a = Some d -> a_ok (arun a (flat_map (doc_vol c) vs)) ->
  let a' := arun a (flat_map (doc_vol c) vs) in a_ok a /\ a_mode a' = a_mode a /\ a_lin a' = a_lin a /\ Forall (judged want judge (a_lin a)) vs /\
  exists ps, a_data a' = Some (d ++ ps) /\ Forall2 (is_pair want) vs ps.
Proof.
  induction vs as [|v vs IH]; intros a d Hm Hd; [cbn; intros Ho; repeat (split; [auto|]); exists []; rewrite app_nil_r; auto|]. cbn [flat_map]. rewrite arun_app, doc_vol_run. intros Ho.
  set (b := vol_run a v) in *. cbv zeta.
  assert (Hb : (a_ok b -> a_ok a /\ judged want judge (a_lin a) v /\ exists q, is_pair want v q /\ a_data b = Some (d ++ [q])) /\ a_mode b = a_mode a /\ a_lin b = a_lin a /\ exists e, a_data b = Some e).
  { subst b. unfold vol_run. cbn [astep a_mode]. rewrite Nat.eqb_refl, Hm. unfold wanted. cbn [a_raw a_lin a_data a_ok a_mode a_cur a_item]. rewrite Hd.
    destruct (v_pred v) as [p|] eqn:Ep; [destruct (want (v_item v)) as [t|] eqn:Et|]; (destruct (v_loss v) as [x|] eqn:El; cbn [astep a_raw a_lin a_data a_ok a_mode a_cur a_item]).
    - split; [|split; [reflexivity|split; [reflexivity|eauto]]]. intros (A & (r & [= <-] & A4)). split; [exact A|]. split.
      + exists p. split; [exact Ep|]. intros y Hy. rewrite El in Hy. injection Hy as <-. unfold wanted in A4. cbn [a_item] in A4. exact A4.
      + exists (p, t). split; [split; assumption|reflexivity].
    - split; [|split; [reflexivity|split; [reflexivity|eauto]]]. intros A. split; [exact A|]. split; [exists p; split; [exact Ep|rewrite El; discriminate]|exists (p, t); split; [split; assumption|reflexivity]].
    - split; [intros [[] _]|]. split; [reflexivity|split; [reflexivity|eauto]].
    - split; [intros []|]. split; [reflexivity|split; [reflexivity|eauto]].
    - split; [intros [[] _]|]. split; [reflexivity|split; [reflexivity|eauto]].
    - split; [intros []|]. split; [reflexivity|split; [reflexivity|eauto]]. }
  destruct Hb as (Hb & Bm & Bl & e & Be). destruct (IH b e) as (A & B & C & F & ps & D & G); [congruence|exact Be|exact Ho|]. destruct (Hb A) as (A1 & J & q & Q & Bd). rewrite B, C, Bm, Bl.
  split; [exact A1|]. repeat (split; [reflexivity|]). split; [constructor; [exact J|now rewrite <- Bl]|]. exists (q :: ps). rewrite D. split; [|now constructor]. rewrite Be in Bd. injection Bd as ->. now rewrite <- app_assoc.
Qed.
Lemma end_run a train skip vs : arun a (doc_end c train skip vs) = if train then astep a (Call h BackwardsEnd) else a.
Proof.
  unfold doc_end. rewrite !arun_app. rewrite (on_deaf _ VolumeBatchEnd) by reflexivity. destruct train; [|reflexivity]. unfold doc_update. rewrite !arun_app.
  rewrite (on_deaf _ BackwardsBegin) by reflexivity. rewrite (on_deaf _ StepEnd) by reflexivity. rewrite on_run.
  assert (H1 : forall b (m : option R), arun b (match m with Some l => [Backward l] | None => [] end) = b) by now intros b [m|].
  assert (H2 : forall b (m : option R), arun b (if skip then [] else match m with Some _ => [Step] | None => [] end) = b) by (intros b [m|]; now destruct skip).
  rewrite H1, H2. reflexivity.
Qed.
Lemma batch_run a (train skip : bool) vs : arun a (doc_batch c train skip vs) =
  let a2 := arun (astep a (Call h VolumeBatchBegin)) (flat_map (doc_vol c) vs) in if train then astep a2 (Call h BackwardsEnd) else a2.
Proof. unfold doc_batch. rewrite !arun_app, end_run, on_run. reflexivity. Qed.
Lemma train_batches skip b : forall a, is_train (a_mode a) = true -> a_ok (arun a (flat_map (doc_batch c true skip) b)) ->
  let a' := arun a (flat_map (doc_batch c true skip) b) in a_ok a /\ a_mode a' = a_mode a /\ corr_batches (corr_train opt) want judge (a_lin a) b (a_lin a').
Proof.
  induction b as [|vs b IH]; intros a Hm Ho; cbn [flat_map] in *; [cbn; auto|]. rewrite arun_app, batch_run in *. cbv zeta in *.
  set (a1 := astep a (Call h VolumeBatchBegin)) in *. assert (E1 : a1 = Au (a_mode a) (a_item a) (a_raw a) (a_cur a) (a_lin a) (Some []) (a_ok a)) by (subst a1; cbn [astep]; now rewrite Nat.eqb_refl, Hm).
  set (a2 := arun a1 (flat_map (doc_vol c) vs)) in *. set (a3 := astep a2 (Call h BackwardsEnd)) in *.
  assert (Hm1 : is_train (a_mode a1) = true) by now rewrite E1. assert (Hd1 : a_data a1 = Some []) by now rewrite E1.
  assert (M2 : forall ws b1, is_train (a_mode b1) = true -> is_train (a_mode (arun b1 (flat_map (doc_vol c) ws))) = true).
  { induction ws as [|w ws IHw]; intros b1 H1; [exact H1|]. cbn [flat_map]. rewrite arun_app, doc_vol_run. apply IHw. unfold vol_run. cbn [astep a_mode]. rewrite Nat.eqb_refl, H1. cbn [a_raw a_data].
    destruct (v_pred w), (a_data b1), (wanted _), (v_loss w); exact H1. }
  assert (H3 : is_train (a_mode a3) = true).
  { subst a3. cbn [astep]. rewrite Nat.eqb_refl. specialize (M2 vs a1 Hm1). fold a2 in M2. destruct (a_data a2); exact M2. }
  destruct (IH a3 H3 Ho) as (A & B & C). assert (O2 : a_ok a2) by (subst a3; cbn [astep] in A; rewrite Nat.eqb_refl in A; now destruct (a_data a2)).
  destruct (vols_train vs a1 [] Hm1 Hd1 O2) as (P1 & P2 & P3 & P4 & ps & P5 & P6). fold a2 in P2, P3, P5.
  assert (L3 : a_lin a3 = corr_train opt ps (a_lin a2) /\ a_mode a3 = a_mode a2) by (subst a3; cbn [astep]; rewrite Nat.eqb_refl, P5; auto). destruct L3 as [L3 M3].
  assert (E1l : a_lin a1 = a_lin a) by now rewrite E1. assert (E1m : a_mode a1 = a_mode a) by now rewrite E1. assert (E1o : a_ok a1 = a_ok a) by now rewrite E1.
  cbv zeta. split; [now rewrite <- E1o|]. split; [congruence|]. cbn [corr_batches]. exists (a_lin a3). split; [|exact C]. split; [now rewrite <- E1l|]. exists ps. split; [exact P6|]. congruence.
Qed.
Lemma valid_batches skip b : forall a, is_train (a_mode a) = false -> a_ok (arun a (flat_map (doc_batch c false skip) b)) ->
  let a' := arun a (flat_map (doc_batch c false skip) b) in a_ok a /\ a_mode a' = a_mode a /\ a_lin a' = a_lin a /\ Forall (judged want judge (a_lin a)) (concat b).
Proof.
  induction b as [|vs b IH]; intros a Hm Ho; cbn [flat_map] in *; [cbn; auto|]. rewrite arun_app, batch_run in *. cbv zeta in *.
  assert (E1 : astep a (Call h VolumeBatchBegin) = a) by (cbn [astep]; now rewrite Nat.eqb_refl, Hm). rewrite E1 in *. set (a2 := arun a (flat_map (doc_vol c) vs)) in *.
  assert (M2 : is_train (a_mode a2) = false).
  { subst a2. clear Ho. revert a Hm E1. induction vs as [|w ws IHw]; intros a Hm E1; [exact Hm|]. cbn [flat_map]. rewrite arun_app, doc_vol_run.
    assert (Hw : is_train (a_mode (vol_run a w)) = false) by (unfold vol_run; cbn [astep a_mode]; rewrite Nat.eqb_refl, Hm; destruct (v_loss w); exact Hm). apply IHw; [exact Hw|]. cbn [astep]. now rewrite Nat.eqb_refl, Hw. }
  destruct (IH a2 M2 Ho) as (A & B & C & F). destruct (vols_valid vs a Hm A) as (P1 & P2 & P3 & P4 & P5). fold a2 in P2, P3, P4. cbv zeta. rewrite B, C, P2, P3. cbn [concat]. rewrite P3 in F.
  repeat (split; [auto|]). apply Forall_app. auto.
Qed.
Lemma rest_run a vs : arun a (match vs with [] => [] | _ => on c VolumeBatchBegin ++ flat_map (doc_vol c) vs end) =
  match vs with [] => a | _ => arun (astep a (Call h VolumeBatchBegin)) (flat_map (doc_vol c) vs) end.
Proof. destruct vs; [reflexivity|]. rewrite arun_app, on_run. reflexivity. Qed.
Lemma train_scan skip s a : is_train (a_mode a) = true -> a_ok (arun a (doc_scan c true skip s)) ->
  let a' := arun a (doc_scan c true skip s) in a_ok a /\ a_mode a' = a_mode a /\ corr_batches (corr_train opt) want judge (a_lin a) (sc_batches s) (a_lin a') /\ Forall (judged want judge (a_lin a')) (sc_rest s).
Proof.
  intros Hm. unfold doc_scan. rewrite arun_app, rest_run. set (a1 := arun a (flat_map (doc_batch c true skip) (sc_batches s))). intros Ho. cbv zeta.
  destruct (sc_rest s) as [|v vs] eqn:Er.
  - destruct (train_batches skip (sc_batches s) a Hm Ho) as (A & B & C). fold a1 in B, C. auto.
  - set (a2 := astep a1 (Call h VolumeBatchBegin)) in *.
    assert (Hm1 : is_train (a_mode a1) = true).
    { subst a1. clear Ho a2. revert a Hm. induction (sc_batches s) as [|ws b IH]; intros a Hm; [exact Hm|]. cbn [flat_map]. rewrite arun_app. apply IH. rewrite batch_run. cbv zeta.
      cbn [astep]. rewrite Nat.eqb_refl, Hm. match goal with |- context [arun ?x (flat_map (doc_vol c) ws)] => set (b1 := x) end.
      assert (M1 : is_train (a_mode b1) = true) by exact Hm.
      assert (M2 : is_train (a_mode (arun b1 (flat_map (doc_vol c) ws))) = true).
      { clearbody b1. revert b1 M1. induction ws as [|w ws IHw]; intros b1 M1; [exact M1|]. cbn [flat_map]. rewrite arun_app, doc_vol_run. apply IHw. unfold vol_run. cbn [astep a_mode]. rewrite Nat.eqb_refl, M1. cbn [a_raw a_data].
        destruct (v_pred w), (a_data b1), (wanted _), (v_loss w); exact M1. }
      destruct (a_data (arun b1 (flat_map (doc_vol c) ws))); exact M2. }
    assert (E2 : a2 = Au (a_mode a1) (a_item a1) (a_raw a1) (a_cur a1) (a_lin a1) (Some []) (a_ok a1)) by (subst a2; cbn [astep]; now rewrite Nat.eqb_refl, Hm1).
    assert (Hm2 : is_train (a_mode a2) = true) by now rewrite E2. assert (Hd2 : a_data a2 = Some []) by now rewrite E2.
    destruct (vols_train (v :: vs) a2 [] Hm2 Hd2 Ho) as (P1 & P2 & P3 & P4 & _). assert (O1 : a_ok a1) by (rewrite E2 in P1; exact P1). destruct (train_batches skip (sc_batches s) a Hm O1) as (A & B & C). fold a1 in B, C.
    rewrite P2, P3. assert (El : a_lin a2 = a_lin a1) by now rewrite E2. assert (Em : a_mode a2 = a_mode a1) by now rewrite E2. rewrite El in *. rewrite Em. auto.
Qed.
Lemma valid_scan skip s a : is_train (a_mode a) = false -> a_ok (arun a (doc_scan c false skip s)) ->
  let a' := arun a (doc_scan c false skip s) in a_ok a /\ a_mode a' = a_mode a /\ a_lin a' = a_lin a /\ Forall (judged want judge (a_lin a)) (scan_vols s).
Proof.
  intros Hm. unfold doc_scan. rewrite arun_app, rest_run. set (a1 := arun a (flat_map (doc_batch c false skip) (sc_batches s))). intros Ho. cbv zeta. unfold scan_vols.
  destruct (sc_rest s) as [|v vs] eqn:Er.
  - destruct (valid_batches skip (sc_batches s) a Hm Ho) as (A & B & C & F). fold a1 in B, C. rewrite app_nil_r. auto.
  - assert (Hm1 : is_train (a_mode a1) = false).
    { subst a1. clear Ho. revert a Hm. induction (sc_batches s) as [|ws b IH]; intros a Hm; [exact Hm|]. cbn [flat_map]. rewrite arun_app. apply IH. rewrite batch_run. cbv zeta.
      cbn [astep]. rewrite Nat.eqb_refl, Hm. revert a Hm. induction ws as [|w ws IHw]; intros a Hm; [exact Hm|]. cbn [flat_map]. rewrite arun_app, doc_vol_run. apply IHw. unfold vol_run. cbn [astep a_mode]. rewrite Nat.eqb_refl, Hm. destruct (v_loss w); exact Hm. }
    assert (E2 : astep a1 (Call h VolumeBatchBegin) = a1) by (cbn [astep]; now rewrite Nat.eqb_refl, Hm1). rewrite E2 in *.
    destruct (vols_valid (v :: vs) a1 Hm1 Ho) as (P1 & P2 & P3 & P4 & P5). destruct (valid_batches skip (sc_batches s) a Hm P1) as (A & B & C & F). fold a1 in B, C.
    rewrite P2, P3, B, C. repeat (split; [auto|]). apply Forall_app. rewrite C in P5. auto.
Qed.
Lemma epochs_run xs : forall a, a_ok (arun a (flat_map (doc_epoch c) xs)) ->
  a_ok a /\ corr_epochs (corr_train opt) want judge (a_lin a) xs (a_lin (arun a (flat_map (doc_epoch c) xs))).
Proof.
  induction xs as [|x xs IH]; intros a Ho; cbn [flat_map] in *; [split; [exact Ho|reflexivity]|]. rewrite arun_app in *. destruct (IH _ Ho) as [A B]. cbn [corr_epochs]. clear IH Ho.
  cut (a_ok a /\ corr_epoch (corr_train opt) want judge (a_lin a) x (a_lin (arun a (doc_epoch c x)))); [intros [C D]; split; [exact C|]; eexists; split; [exact D|exact B]|]. clear B.
  unfold doc_epoch, doc_run in *. rewrite !arun_app in *. rewrite (on_deaf _ EpochBegin) in * by reflexivity. rewrite (on_deaf _ EpochEnd) in * by reflexivity. cbn [arun fold_left] in *.
  set (a1 := astep a SetTrain) in *. assert (Hm1 : is_train (a_mode a1) = true) by reflexivity. change (fold_left astep ?l ?b) with (arun b l) in *.
  set (a2 := arun a1 (doc_scan c true (ep_skip x) (ep_train x))) in *. unfold corr_epoch. destruct (ep_valid x) as [v|].
  - rewrite !arun_app in *. rewrite (on_deaf _ EpochBegin) in * by reflexivity. rewrite (on_deaf _ EpochEnd) in * by reflexivity. cbn [arun fold_left] in *. change (fold_left astep ?l ?b) with (arun b l) in *.
    set (a3 := astep a2 SetEval) in *. assert (Hm3 : is_train (a_mode a3) = false) by reflexivity.
    destruct (valid_scan (ep_skip x) v a3 Hm3 A) as (P1 & _ & P3 & P4). destruct (train_scan (ep_skip x) (ep_train x) a1 Hm1 P1) as (Q1 & _ & Q3 & Q4). fold a2 in Q3, Q4. rewrite P3. change (a_lin a3) with (a_lin a2) in *. auto.
  - cbn [arun fold_left] in *. destruct (train_scan (ep_skip x) (ep_train x) a1 Hm1 A) as (Q1 & _ & Q3 & Q4). auto.
Qed.
Lemma fit_run xs : a_ok (arun au0 (doc_fit c xs)) -> corr_epochs (corr_train opt) want judge l0 xs (a_lin (arun au0 (doc_fit c xs))).
Proof.
  unfold doc_fit. rewrite !arun_app. rewrite (on_deaf _ SetWrapper) by reflexivity. rewrite (on_deaf _ TrainBegin) by reflexivity. rewrite (on_deaf _ TrainEnd) by reflexivity. intros Ho. exact (proj2 (epochs_run xs au0 Ho)).
Qed.
Lemma tame_corr : tame E' cbs.
Proof.
  intros k e f [w x] f' w' Hk. cbn [with_corr e_cb]. destruct (Nat.eqb_spec k h) as [->|Hkh].
  - unfold corr_cb. destruct e; try (intros [= <- <-]; auto 20).
    + destruct (is_train (f_state f)); intros [= <- <-]; auto 20.
    + destruct (f_pred f) as [p|] eqn:Ep; [|discriminate].
      assert (Hs : Some (linear (c_lin x) p) = None <-> f_pred f = None) by (rewrite Ep; split; discriminate).
      destruct (is_train (f_state f)); [destruct (c_data x), (target w); try discriminate|]; intros [= <- <-]; rewrite <- Ep; cbn; auto 20.
    + destruct (c_data x) as [[|q d]|]; try discriminate. intros [= <- <-]; auto 20.
  - destruct (e_cb E k e (f, w)) as [r [f1 w1]] eqn:Ec. intros [= -> <- _].
    apply (HT k e f w f1 w1); [|exact Ec]. apply in_app_iff in Hk. apply in_app_iff. destruct Hk as [Hk|[Hk|Hk]]; [now left|congruence|now right].
Qed.
End F.

(* plain gradient descent on the mean squared error of a line *)
Section Descent.
Implicit Types d : list (R * R).
Lemma sum_step d w b gw gb t :
  Rsum (map (fun q => ((w - t * gw) * fst q + (b - t * gb) - snd q)²) d) =
  Rsum (map (fun q => (w * fst q + b - snd q)²) d)
  - t * (gw * Rsum (map (fun q => 2 * (w * fst q + b - snd q) * fst q) d) + gb * Rsum (map (fun q => 2 * (w * fst q + b - snd q)) d))
  + t² * Rsum (map (fun q => (gw * fst q + gb)²) d).
Proof. induction d as [|q d IH]; cbn [map Rsum fold_right]; [ring|]. unfold Rsum in *. cbn [fold_right]. rewrite IH. unfold Rsqr. ring. Qed.
Lemma sum_cauchy d gw gb : Rsum (map (fun q => (gw * fst q + gb)²) d) <= (gw² + gb²) * (Rsum (map (fun q => (fst q)²) d) + INR (length d)).
Proof.
  induction d as [|q d IH]; [cbn; unfold Rsqr; lra|]. cbn [map length]. rewrite S_INR. unfold Rsum in *. cbn [fold_right].
  assert (H : (gw * fst q + gb)² <= (gw² + gb²) * ((fst q)² + 1)) by (pose proof (Rle_0_sqr (gw - gb * fst q)); unfold Rsqr in *; lra). unfold Rsqr in *. lra.
Qed.
Lemma len_pos d : d <> [] -> 0 < INR (length d).
Proof. intros H. apply lt_0_INR. destruct d; [now destruct H|cbn; lia]. Qed.
Definition grad2 (g : R * R) : R := (fst g)² + (snd g)².
Lemma line_step d w b t gw gb : d <> [] ->
  line_mse (w - t * gw) (b - t * gb) d = line_mse w b d - t * (gw * fst (mse_grad (Lin w b tt) d) + gb * snd (mse_grad (Lin w b tt) d)) + t² * (Rsum (map (fun q => (gw * fst q + gb)²) d) / INR (length d)).
Proof. intros H. pose proof (len_pos d H). unfold line_mse, mse_grad, linear. cbn [fst snd l_w l_b]. rewrite sum_step. field. lra. Qed.
Lemma mean_cauchy d gw gb : d <> [] -> Rsum (map (fun q => (gw * fst q + gb)²) d) / INR (length d) <= (gw² + gb²) * (mean_sq d + 1).
Proof.
  intros H. pose proof (len_pos d H) as Hp. pose proof (sum_cauchy d gw gb) as Hc. unfold mean_sq. apply Rmult_le_reg_r with (INR (length d)); [exact Hp|].
  replace (Rsum (map (fun q => (gw * fst q + gb)²) d) / INR (length d) * INR (length d)) with (Rsum (map (fun q => (gw * fst q + gb)²) d)) by (field; lra).
  replace ((gw² + gb²) * (Rsum (map (fun q => (fst q)²) d) / INR (length d) + 1) * INR (length d)) with ((gw² + gb²) * (Rsum (map (fun q => (fst q)²) d) + INR (length d))) by (field; lra). exact Hc.
Qed.
Definition fl (l : lin unit) d := line_mse (l_w l) (l_b l) d.
Lemma step_val lr d (l : lin unit) : d <> [] -> fl (corr_step (sgd lr) d l) d <= fl l d - lr * grad2 (mse_grad l d) * (1 - lr * (mean_sq d + 1)).
Proof.
  intros H. destruct l as [w b []]. unfold corr_step, sgd, fl. cbn [fst snd l_w l_b l_opt]. rewrite line_step by exact H.
  set (gw := fst (mse_grad (Lin w b tt) d)). set (gb := snd (mse_grad (Lin w b tt) d)). change (grad2 (mse_grad (Lin w b tt) d)) with (gw² + gb²).
  pose proof (mean_cauchy d gw gb H) as Hc. apply (Rmult_le_compat_l (lr²) _ _ (Rle_0_sqr lr)) in Hc. unfold Rsqr in *. lra.
Qed.
Lemma grad2_nn g : 0 <= grad2 g. Proof. unfold grad2. pose proof (Rle_0_sqr (fst g)). pose proof (Rle_0_sqr (snd g)). lra. Qed.
Lemma iter_le lr d n (l : lin unit) : 0 <= lr -> d <> [] -> lr * (mean_sq d + 1) <= 1 -> fl (N.iter n (corr_step (sgd lr) d) l) d <= fl l d.
Proof.
  intros H0 Hd Hl. apply (N.iter_invariant n _ _ (fun m => fl m d <= fl l d)); [|lra]. intros m Hm. pose proof (step_val lr d m Hd) as Hs.
  assert (0 <= lr * grad2 (mse_grad m d) * (1 - lr * (mean_sq d + 1))); [|lra]. apply Rmult_le_pos; [apply Rmult_le_pos; [exact H0|apply grad2_nn]|lra].
Qed.
Lemma iter_lt lr d n (l : lin unit) : n <> 0%N -> 0 < lr -> d <> [] -> lr * (mean_sq d + 1) < 1 -> 0 < grad2 (mse_grad l d) -> fl (N.iter n (corr_step (sgd lr) d) l) d < fl l d.
Proof.
  intros Hn H0 Hd Hl Hg. destruct (N.eq_dec n 0) as [|_]; [contradiction|]. replace n with (N.succ (N.pred n)) by lia. rewrite N.iter_succ_r.
  eapply Rle_lt_trans; [apply iter_le; [lra|exact Hd|lra]|]. pose proof (step_val lr d l Hd) as Hs.
  assert (0 < lr * grad2 (mse_grad l d) * (1 - lr * (mean_sq d + 1))); [|lra]. apply Rmult_lt_0_compat; [now apply Rmult_lt_0_compat|lra].
Qed.
Lemma grad2_zero g : ~ 0 < grad2 g -> g = (0, 0).
Proof.
  intros H. pose proof (Rle_0_sqr (fst g)). pose proof (Rle_0_sqr (snd g)). unfold grad2 in H. destruct g as [a b]. cbn [fst snd] in *.
  rewrite (Rsqr_0_uniq a), (Rsqr_0_uniq b) by lra. reflexivity.
Qed.
Lemma iter_fix lr d n (l : lin unit) : mse_grad l d = (0, 0) -> N.iter n (corr_step (sgd lr) d) l = l.
Proof.
  intros Hg. apply (N.iter_invariant n _ _ (fun m => m = l)); [|reflexivity]. intros m ->. unfold corr_step, sgd. rewrite Hg. cbn [fst snd]. destruct l as [w b []]. cbn. f_equal; ring.
Qed.
Lemma min_grad d (l : lin unit) : d <> [] -> mse_grad l d = (0, 0) <-> forall w b, fl l d <= line_mse w b d.
Proof.
  intros Hd. destruct l as [w b []]. split.
  - intros Hg v a. unfold fl. cbn [l_w l_b]. replace v with (w - 1 * (w - v)) by ring. replace a with (b - 1 * (b - a)) by ring. rewrite line_step by exact Hd. rewrite Hg. cbn [fst snd].
    assert (0 <= Rsum (map (fun q => ((w - v) * fst q + (b - a))²) d) / INR (length d)).
    { apply Rmult_le_pos; [|pose proof (len_pos d Hd); left; now apply Rinv_0_lt_compat]. clear. induction d as [|q d IH]; [cbn; lra|]. unfold Rsum in *. cbn [map fold_right]. pose proof (Rle_0_sqr ((w - v) * fst q + (b - a))). lra. }
    unfold Rsqr at 1. lra.
  - intros Hm. apply grad2_zero. intros Hg.
    assert (H0 : 0 <= mean_sq d).
    { unfold mean_sq. apply Rmult_le_pos; [|pose proof (len_pos d Hd); left; now apply Rinv_0_lt_compat]. clear. induction d as [|q d IH]; [cbn; lra|]. unfold Rsum in *. cbn [map fold_right]. pose proof (Rle_0_sqr (fst q)). lra. }
    set (lr := / (2 * (mean_sq d + 1))). assert (Hlr : lr * (mean_sq d + 1) = 1 / 2) by (unfold lr; field; lra). assert (0 < lr) by (apply Rinv_0_lt_compat; lra).
    pose proof (iter_lt lr d 1 (Lin w b tt) ltac:(discriminate) ltac:(lra) Hd ltac:(lra) Hg) as Hlt. cbn [N.iter Pos.iter] in Hlt.
    specialize (Hm (l_w (corr_step (sgd lr) d (Lin w b tt))) (l_b (corr_step (sgd lr) d (Lin w b tt)))). unfold fl in *. lra.
Qed.
(* a step that is too long: the error of the line at (1, 0) is multiplied by -3 *)
Lemma iter_up n (l : lin unit) : n <> 0%N -> 1 <= (l_w l + l_b l)² -> fl l [(1, 0)] < fl (N.iter n (corr_step (sgd 1) [(1, 0)]) l) [(1, 0)].
Proof.
  assert (Hf : forall m : lin unit, fl m [(1, 0)] = (l_w m + l_b m)²) by (intros m; unfold fl, line_mse; cbn; unfold Rsqr; field).
  assert (Hs : forall m : lin unit, fl (corr_step (sgd 1) [(1, 0)] m) [(1, 0)] = 9 * fl m [(1, 0)]) by (intros m; unfold fl, line_mse, corr_step, sgd, mse_grad, linear; cbn; unfold Rsqr; field).
  intros Hn Hl. rewrite <- Hf in Hl. replace n with (N.succ (N.pred n)) by lia. rewrite N.iter_succ, Hs.
  assert (H : fl l [(1, 0)] <= fl (N.iter (N.pred n) (corr_step (sgd 1) [(1, 0)]) l) [(1, 0)]); [|lra].
  apply (N.iter_invariant (N.pred n) _ _ (fun m => fl l [(1, 0)] <= fl m [(1, 0)])); [|lra]. intros m Hm. rewrite Hs. lra.
Qed.
End Descent.
