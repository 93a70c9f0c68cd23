(* predict with a PredHandler returns the predictions with their targets; the prediction file. *)
From Coq Require Import Lia Lra.
From Verif Require Import Base.RUtil Model.Fit Model.PredCb Spec.FitSpec Spec.PredSpec Proofs.FitP Proofs.FitScan Proofs.FitAll.
Open Scope list_scope.

Section H.
Context {W I P T : Type}.
Variable E : env W I P.
Variable cbs : list nat.
Variable h : nat.
Variable target : W -> res T.
Variable want : I -> T.
Hypothesis Hh : ~ In h cbs.
Hypothesis HT : tame E cbs.
(* loading a volume sets its target, and nothing else changes it before the end of the prediction *)
Hypothesis Hload : forall x w w', e_load E x w = (Ok tt, w') -> target w' = Ok (want x).
Notation keeps := (keeps target).
Hypothesis Kinf : keeps (e_inferrer E).
Hypothesis Kgen : forall n, keeps (e_generate E n).
Hypothesis Kcross : keeps (e_cross E).
Hypothesis Kscat : keeps (e_scatter E).
Hypothesis Kadd : keeps (e_add E).
Hypothesis Kpred : keeps (e_predict E).
Hypothesis Kcb : forall k e f w f' w', In k cbs -> e_cb E k e (f, w) = (Ok tt, (f', w')) -> target w' = target w /\ f_pred f' = f_pred f.

Notation E' := (with_handler target E h).
Notation all := (cbs ++ [h]).
Notation st' := (st (W * option (list (P * T))) I P).
Notation M' := (M (W * option (list (P * T))) I P).

Lemma tame_handler : tame E' all.
Proof.
  intros k e f [w ps] f' w' Hk. cbn [with_handler e_cb].
  destruct (Nat.eqb_spec k h) as [->|Hkh].
  - unfold handler_cb. destruct e; try (intros [= <- <-]; auto 20).
    destruct (is_test (f_state f)); [|intros [= <- <-]; auto 20]. destruct ps as [ps|]; [|discriminate].
    destruct (f_pred f) as [p|] eqn:Ep; destruct (target w); try discriminate. intros [= <- <-]; rewrite Ep; auto 20.
  - destruct (e_cb E k e (f, w)) as [r [f1 w1]] eqn:Ec. intros [= -> <- _].
    apply (HT k e f w f1 w1); [|exact Ec]. apply in_app_iff in Hk. destruct Hk as [Hk|[Hk|[]]]; [exact Hk|congruence].
Qed.

Lemma keeps_handler : forall k e f w f' w', In k all -> e_cb E' k e (f, w) = (Ok tt, (f', w')) -> f_pred f' = f_pred f.
Proof.
  intros k e f [w ps] f' w' Hk. cbn [with_handler e_cb]. destruct (Nat.eqb_spec k h) as [->|Hkh].
  - unfold handler_cb. destruct e; try (now intros [= <- _]). destruct (is_test (f_state f)); [|now intros [= <- _]]. destruct ps as [ps|]; [|discriminate].
    destruct (f_pred f) as [p|] eqn:Ep; destruct (target w); try discriminate. now intros [= <- _].
  - destruct (e_cb E k e (f, w)) as [r [f1 w1]] eqn:Ec. intros [= -> <- _].
    refine (proj2 (Kcb k e f w f1 w1 _ Ec)). apply in_app_iff in Hk. destruct Hk as [Hk|[Hk|[]]]; [exact Hk|congruence].
Qed.

(* what an operation that ends normally keeps *)
Definition okpres (R : st' -> Prop) {A} (m : M' A) : Prop := forall s a s', m s = (Ok a, s') -> R s -> R s'.
Lemma seq_ok {A B} (m : M' A) (k : A -> M' B) s b s' : seqM m k s = (Ok b, s') -> exists a s1, m s = (Ok a, s1) /\ k a s1 = (Ok b, s').
Proof. unfold seqM. destruct (m s) as [[a|e] s1]; [|discriminate]. intros H. now exists a, s1. Qed.
Lemma okpres_bind R {A B} (m : M' A) (k : A -> M' B) : okpres R m -> (forall a, okpres R (k a)) -> okpres R (seqM m k).
Proof. intros H1 H2 s b s' H HR. apply seq_ok in H as (a & s1 & Ha & Hb). exact (H2 a _ _ _ Hb (H1 _ _ _ Ha HR)). Qed.
Lemma okpres_each R {A} (f : A -> M' unit) l : (forall a, In a l -> okpres R (f a)) -> okpres R (each f l).
Proof.
  induction l as [|a l IH]; intros H; cbn [each]; [now intros s b s' [= <- <-]|]. apply okpres_bind; [apply H; now left|]. intros _.
  apply IH. intros x Hx. apply H. now right.
Qed.

(* the target t is in the volume and the handler has recorded ps *)
Definition rec (t : res T) (ps : option (list (P * T))) (s : st') : Prop :=
  target (fst (s_w s)) = t /\ snd (s_w s) = ps /\ f_state (s_fp s) = Some Test.
Lemma rec_emit t ps i : okpres (rec t ps) (emit i). Proof. now intros s a s' [= <- <-]. Qed.
Lemma rec_modf t ps g : (forall f, f_state (g f) = f_state f) -> okpres (rec t ps) (modf g).
Proof. intros Hg s a s' [= <- <-]. unfold rec. cbn. now rewrite Hg. Qed.
Lemma rec_getf {A} t ps (g : _ -> A) : okpres (rec t ps) (getf g). Proof. now intros s a s' [= <- <-]. Qed.
Lemma rec_quotient t ps n b : okpres (rec t ps) (quotient n b).
Proof. unfold quotient. destruct (Nat.eqb b 0); [discriminate|now intros s a s' [= <- <-]]. Qed.
Lemma rec_world {A} t ps (g : W -> res A * W) : keeps g -> okpres (rec t ps) (world (lift g)).
Proof.
  intros Kg s a s'. unfold world, lift. destruct (g (fst (s_w s))) as [r w] eqn:Eg. intros [= -> <-] [H1 H2]. unfold rec. cbn.
  split; [|exact H2]. rewrite <- H1. exact (Kg _ _ _ Eg).
Qed.
Lemma rec_act t ps i (g : W -> res unit * W) : keeps g -> okpres (rec t ps) (act i (lift g)).
Proof. intros Kg. apply okpres_bind; [apply rec_emit|intros _; now apply rec_world]. Qed.
Lemma rec_cb t ps k e : In k cbs -> okpres (rec t ps) (run_cb E' k e).
Proof.
  intros Hk s a s'. unfold run_cb. cbn [with_handler e_cb]. destruct (Nat.eqb_spec k h) as [->|_]; [contradiction|].
  destruct (s_w s) as [w qs] eqn:Ew. destruct (e_cb E k e (s_fp s, w)) as [r [f1 w1]] eqn:Ec. intros [= -> <-]. unfold rec. rewrite Ew. cbn.
  destruct a. intros (<- & <- & <-). split; [|split; [reflexivity|]].
  - exact (proj1 (Kcb _ _ _ _ _ _ Hk Ec)).
  - apply (HT _ _ _ _ _ _ Hk Ec).
Qed.
Lemma rec_cbs t ps e : okpres (rec t ps) (each (fun k => seqM (emit (Call k e)) (fun _ => run_cb E' k e)) cbs).
Proof. apply okpres_each. intros k Hk. apply okpres_bind; [apply rec_emit|intros _; now apply rec_cb]. Qed.
Lemma each_app {A} (f : A -> M' unit) l m s : each f (l ++ m) s = seqM (each f l) (fun _ => each f m) s.
Proof.
  revert s. induction l as [|a l IH]; intros s; [reflexivity|]. cbn [app each]. unfold seqM. destruct (f a s) as [[[]|e] s1]; [|reflexivity].
  rewrite IH. unfold seqM. destruct (each f l s1) as [[]]; reflexivity.
Qed.
(* a call: first the other callbacks, then the handler *)
Lemma call_split e s u s' : call E' all e s = (Ok u, s') -> exists s1 fw,
  each (fun k => seqM (emit (Call k e)) (fun _ => run_cb E' k e)) cbs s = (Ok tt, s1) /\
  handler_cb target e (s_fp s1, s_w s1) = (Ok tt, fw) /\ s' = St (fst fw) (snd fw) (s_tr s1 ++ [Call h e]).
Proof.
  unfold call. intros H. rewrite each_app in H. apply seq_ok in H as ([] & s1 & H1 & H2). cbn [each] in H2.
  apply seq_ok in H2 as ([] & s2 & H2 & H3). injection H3 as <- <-. apply seq_ok in H2 as ([] & s3 & H3 & H4). injection H3 as <-.
  unfold run_cb in H4. cbn [with_handler e_cb s_fp s_w s_tr] in H4. rewrite Nat.eqb_refl in H4.
  destruct (handler_cb target e (s_fp s1, s_w s1)) as [r [f w]] eqn:Eh. injection H4 as -> <-.
  exists s1, (f, w). auto.
Qed.
Definition silent (e : event) : bool := match e with PredBegin | X0PredEnd => false | _ => true end.
Lemma rec_call t ps e : silent e = true -> okpres (rec t ps) (call E' all e).
Proof.
  intros He s a s' H HR. apply call_split in H as (s1 & fw & H1 & H2 & ->).
  pose proof (rec_cbs t ps e _ _ _ H1 HR) as R1. unfold handler_cb in H2. unfold rec in *. destruct (s_w s1) as [w qs].
  destruct e; try discriminate He; injection H2 as <-; exact R1.
Qed.
Lemma cbs_pred e s s' : each (fun k => seqM (emit (Call k e)) (fun _ => run_cb E' k e)) cbs s = (Ok tt, s') -> f_pred (s_fp s') = f_pred (s_fp s).
Proof.
  intros H. refine (okpres_each (fun z => f_pred (s_fp z) = f_pred (s_fp s)) _ cbs _ s tt s' H eq_refl). intros k Hk.
  apply okpres_bind; [intros z a z' [= <- <-]; auto|intros _]. intros z a z'. unfold run_cb. cbn [with_handler e_cb]. destruct (Nat.eqb_spec k h) as [->|_]; [contradiction|].
  destruct (s_w z) as [w qs]. destruct (e_cb E k e (s_fp z, w)) as [r [f1 w1]] eqn:Ec. intros [= -> <-]. cbn. destruct a. intros <-. exact (proj2 (Kcb _ _ _ _ _ _ Hk Ec)).
Qed.

(* one volume *)
Lemma volume_rec t ps s u s' : rec (Ok t) (Some ps) s -> scan_volume E' all s = (Ok u, s') ->
  exists p, f_pred (s_fp s') = Some p /\ rec (Ok t) (Some (ps ++ [(p, t)])) s'.
Proof.
  intros HR H. unfold scan_volume in H.
  apply seq_ok in H as (a1 & s1 & H1 & H). pose proof (rec_modf (Ok t) (Some ps) (set_pred _) (fun _ => eq_refl) _ _ _ H1 HR) as RH1; clear H1; rename RH1 into H1.
  apply seq_ok in H as (a2 & s2 & H2 & H). pose proof (rec_getf (Ok t) (Some ps) _ _ _ _ H2 H1) as RH2; clear H2; rename RH2 into H2.
  apply seq_ok in H as (a3 & s3 & H3 & H). pose proof (rec_getf (Ok t) (Some ps) _ _ _ _ H3 H2) as RH3; clear H3; rename RH3 into H3.
  apply seq_ok in H as (a4 & s4 & H4 & H). pose proof (rec_quotient (Ok t) (Some ps) _ _ _ _ _ H4 H3) as RH4; clear H4; rename RH4 into H4.
  apply seq_ok in H as (a5 & s5 & H5 & H). pose proof (rec_act (Ok t) (Some ps) _ _ Kinf _ _ _ H5 H4) as RH5; clear H5; rename RH5 into H5.
  apply seq_ok in H as (a6 & s6 & H6 & H).
  assert (R6 : rec (Ok t) (Some ps) s6).
  { refine (okpres_each _ _ _ _ _ _ _ H6 H5). intros _ _. unfold mu_batch.
    apply okpres_bind; [apply rec_getf|intros n]. apply okpres_bind; [apply rec_act, Kgen|intros _].
    apply okpres_bind; [now apply rec_call|intros _]. apply okpres_bind; [apply rec_act, Kcross|intros _].
    apply okpres_bind; [apply rec_act, Kscat|intros _]. apply okpres_bind; [now apply rec_call|intros _].
    apply okpres_bind; [apply rec_act, Kadd|intros _]. now apply rec_call. }
  apply seq_ok in H as (a7 & s7 & H7 & H). pose proof (rec_call (Ok t) (Some ps) X0PredBegin eq_refl _ _ _ H7 R6) as RH7; clear H7; rename RH7 into H7.
  apply seq_ok in H as (p & s8 & H8 & H). pose proof (rec_world (Ok t) (Some ps) _ Kpred _ _ _ H8 H7) as RH8; clear H8; rename RH8 into H8.
  apply seq_ok in H as (a9 & s9 & H9 & H). assert (P9 : f_pred (s_fp s9) = p) by (injection H9 as _ <-; reflexivity).
  pose proof (rec_modf (Ok t) (Some ps) (set_pred _) (fun _ => eq_refl) _ _ _ H9 H8) as RH9; clear H9; rename RH9 into H9.
  apply seq_ok in H as (a10 & s10 & H10 & H). assert (P10 : f_pred (s_fp s10) = p) by (injection H10 as _ <-; exact P9).
  pose proof (rec_emit (Ok t) (Some ps) _ _ _ _ H10 H9) as RH10; clear H10; rename RH10 into H10.
  apply seq_ok in H as (a11 & s11 & H11 & H).
  apply call_split in H11 as (s12 & fw & H12 & H13 & ->).
  pose proof (cbs_pred _ _ _ H12) as P12. rewrite P10 in P12. pose proof (rec_cbs (Ok t) (Some ps) _ _ _ _ H12 H10) as RH12; clear H12; rename RH12 into H12.
  destruct H12 as (T12 & S12 & St12). unfold handler_cb in H13. destruct (s_w s12) as [w qs]. cbn [fst snd] in *. subst qs.
  rewrite St12 in H13. cbn [is_test] in H13. rewrite P12, T12 in H13. destruct p as [p|]; [|discriminate]. injection H13 as <-.
  unfold add_loss in H. apply seq_ok in H as (m & s13 & Hm & H). injection Hm as <- <-. cbn [s_fp fst] in H. rewrite St12 in H.
  apply seq_ok in H as (q & s14 & Hq & H). injection Hq as <- <-. injection H as <- <-.
  exists p. cbn [fst snd s_fp s_w]. split; [exact P12|]. unfold rec. cbn [fst snd s_fp s_w]. auto.
Qed.

Variable c : cfg.
Hypothesis Hc : c_cbs c = all.

Lemma scan_rec d : forall m i ps s u s', agrees c (s_fp s) -> f_state (s_fp s) = Some Test -> snd (s_w s) = Some ps ->
  scan_from E' all d m i s = (Ok u, s') ->
  exists vs, length vs = m /\ s_tr s' = s_tr s ++ flat_map (doc_vol c) vs /\
    exists qs, Forall2 (fun v q => v_pred v = Some (fst q) /\ snd q = want (v_item v)) vs qs /\ snd (s_w s') = Some (ps ++ qs).
Proof.
  induction m as [|m IH]; intros i ps s u s' Ha Hst Hps H.
  - injection H as <- <-. exists []. split; [reflexivity|]. split; [cbn; now rewrite app_nil_r|]. exists []. split; [constructor|now rewrite app_nil_r].
  - cbn [scan_from] in H.
    pose proof tame_handler as HT'. rewrite <- Hc in HT'.
    apply seq_ok in H as (x & s1 & H1 & H).
    assert (F1 : s_fp s1 = s_fp s /\ s_tr s1 = s_tr s /\ snd (s_w s1) = Some ps).
    { unfold world in H1. cbn [with_handler e_next] in H1. unfold lift in H1. destruct (e_next E d i (fst (s_w s))). injection H1 as _ <-. cbn. auto. }
    destruct F1 as (F1 & T1 & S1).
    apply seq_ok in H as (a2 & s2 & H2 & H). injection H2 as <- <-.
    apply seq_ok in H as (a3 & s3 & H3 & H). unfold batch_begin in H3. apply seq_ok in H3 as (m0 & s0 & H0 & H3). injection H0 as <- <-.
    cbn in H3. rewrite F1, Hst in H3. cbn [is_test] in H3. injection H3 as <- <-.
    apply seq_ok in H as (a4 & s4 & H4 & H).
    assert (F4 : s_fp s4 = set_volume_id (Some i) (s_fp s) /\ s_tr s4 = s_tr s ++ [Loaded x] /\ rec (Ok (want x)) (Some ps) s4).
    { unfold act, seqM, emit, world in H4. cbn [with_handler e_load s_fp s_w s_tr] in H4. unfold lift in H4.
      destruct (e_load E x (fst (s_w s1))) as [r w] eqn:El. injection H4 as -> <-. cbn [s_fp s_w s_tr]. rewrite T1. destruct a4.
      unfold rec. cbn. split; [reflexivity|]. split; [reflexivity|]. split; [exact (Hload _ _ _ El)|]. auto. }
    destruct F4 as (F4 & T4 & R4).
    apply seq_ok in H as (a5 & s5 & H5 & H). pose proof (rec_call (Ok (want x)) (Some ps) VolumeBegin eq_refl _ _ _ H5 R4) as R5.
    rewrite <- Hc in H5. destruct (call_still E' c HT' VolumeBegin s4 eq_refl _ _ H5) as [l5 [T5 [_ [K5 ->]]]].
    assert (A5 : agrees c (s_fp s5)) by (eapply agrees_fixed; [exact (proj1 (proj1 K5))|rewrite F4; exact Ha]).
    apply seq_ok in H as (a6 & s6 & H6 & H). pose proof (volume_rec (want x) ps _ _ _ R5 H6) as (p & P6 & R6).
    rewrite <- Hc in H6. destruct (scan_volume_spec E' c HT' x s5 A5 _ _ H6) as [l6 [T6 [_ (v & Hv & _ & -> & K6 & P6')]]].
    apply seq_ok in H as (a7 & s7 & H7 & H). pose proof (rec_call _ _ VolumeEnd eq_refl _ _ _ H7 R6) as R7.
    rewrite <- Hc in H7. destruct (call_still E' c HT' VolumeEnd s6 eq_refl _ _ H7) as [l7 [T7 [_ [K7 ->]]]].
    apply seq_ok in H as (stop & s8 & H8 & H). destruct R7 as (R71 & R72 & R73).
    unfold batch_end in H8. apply seq_ok in H8 as (m0 & s0 & H0 & H8). injection H0 as <- <-. rewrite R73 in H8. cbn [is_test] in H8. injection H8 as <- <-.
    assert (A7 : agrees c (s_fp s7)).
    { eapply agrees_fixed; [exact (proj1 (proj1 K7))|]. eapply agrees_fixed; [exact (proj1 K6)|exact A5]. }
    destruct (IH (S i) _ s7 u s' A7 R73 R72 H) as (vs & L & Tt & qs & F & Sw).
    exists (v :: vs). split; [cbn; now rewrite L|]. split.
    + rewrite Tt, T7, T6, T5, T4. cbn [flat_map]. unfold doc_vol, doc_vol_tail. rewrite Hv. flat. reflexivity.
    + exists ((p, want x) :: qs). split.
      * constructor; [|exact F]. cbn. rewrite Hv. unfold keeps_pred in P6'. rewrite Hc in P6'. rewrite (P6' keeps_handler) in P6. split; [exact P6|reflexivity].
      * rewrite Sw. now rewrite <- app_assoc.
Qed.

Lemma predict_rec s u s' : agrees c (s_fp s) -> f_state (s_fp s) = Some Test -> s_tr s = [] -> predict_body E' all s = (Ok u, s') ->
  exists vs, length vs = e_len E TstData /\ s_tr s' = doc_predict c vs /\
    exists qs, Forall2 (fun v q => v_pred v = Some (fst q) /\ snd q = want (v_item v)) vs qs /\ snd (s_w s') = Some qs.
Proof.
  intros Ha Hst Ht H. pose proof tame_handler as HT'. rewrite <- Hc in HT'. unfold predict_body in H.
  apply seq_ok in H as (a1 & s1 & H1 & H). rewrite <- Hc in H1. destruct (call_spec E' c HT' _ _ _ _ H1) as [l1 [T1 [_ [K1 [_ ->]]]]].
  apply seq_ok in H as (a2 & s2 & H2 & H). destruct (spec_act _ _ _ _ _ H2) as [l2 [T2 Q2]]. destruct a2. destruct Q2 as [_ [F2 ->]].
  apply seq_ok in H as (a3 & s3 & H3 & H). pose proof H3 as H3'. rewrite <- Hc in H3'. destruct (call_spec E' c HT' _ _ _ _ H3') as [l3 [T3 [_ [K3 [_ ->]]]]].
  assert (P3 : snd (s_w s3) = Some []).
  { apply call_split in H3 as (s4 & fw & H4 & H5 & ->). unfold handler_cb in H5. destruct (s_w s4). injection H5 as <-. reflexivity. }
  assert (K : fixed (s_fp s) (s_fp s3)) by (rewrite F2 in K3; unfold same, fixed in *; intuition congruence).
  apply seq_ok in H as (a4 & s4 & H4 & H). unfold scan_volumes in H4.
  assert (St3 : f_state (s_fp s3) = Some Test) by (destruct K as [K _]; congruence).
  destruct (scan_rec _ _ _ [] s3 a4 s4 (agrees_fixed c _ _ K Ha) St3 P3 H4) as (vs & L & T4 & qs & F & Sw).
  pose proof H as H'. rewrite <- Hc in H'. destruct (call_spec E' c HT' _ _ _ _ H') as [l5 [T5 Q5]]. destruct u. destruct Q5 as [_ [_ [_ ->]]].
  exists vs. split; [exact L|]. split.
  - rewrite T5, T4, T3, T2, T1, Ht. unfold doc_predict. flat. reflexivity.
  - exists qs. split; [exact F|]. apply call_split in H as (s6 & fw & H6 & H7 & ->).
    assert (S6 : snd (s_w s6) = Some qs).
    { refine (okpres_each (fun s => snd (s_w s) = Some qs) _ cbs _ _ _ _ H6 Sw). intros k Hk. apply okpres_bind; [now intros y a y' [= <- <-]|]. intros _ y a y'.
      unfold run_cb. cbn [with_handler e_cb]. destruct (Nat.eqb_spec k h) as [->|_]; [contradiction|]. destruct (s_w y) as [w z].
      destruct (e_cb E k PredEnd (s_fp y, w)) as [r [f1 w1]]. intros [= -> <-]. auto. }
    unfold handler_cb in H7. destruct (s_w s6). injection H7 as <-. exact S6.
Qed.
End H.

(* ---- the prediction file ---- *)
Section F.
Context {A B : Type}.
Lemma write_rows (l : list (A * B)) p t : write_data None p t (rows l) = rows (l ++ [(p, t)]).
Proof. destruct l as [|q l]; [reflexivity|]. unfold rows. cbn [app]. unfold write_data. cbn. now rewrite !map_app. Qed.
Lemma run_rows (l : list (A * B)) : forall l0, run_writes (map (fun q => (fst q, snd q, None)) l) (rows l0) = rows (l0 ++ l).
Proof.
  induction l as [|[p t] l IH]; intros l0; cbn [map run_writes fst snd]; [now rewrite app_nil_r|]. rewrite write_rows, IH. now rewrite <- app_assoc.
Qed.
(* without failures the rows of both datasets are the pairs since the last overwriting *)
Lemma runs_rows (rs : list (bool * list (A * B))) : forall acc,
  runs (map (fun r => (fst r, map (fun q => (fst q, snd q, None)) (snd r))) rs) (Some (rows acc)) = Some (rows (kept_pairs rs acc)).
Proof.
  induction rs as [|[o l] rs IH]; intros acc; [reflexivity|]. cbn [map runs kept_pairs fst snd open_handler].
  destruct o; [change (H5 None None) with (rows (@nil (A * B)))|]; now rewrite run_rows, IH.
Qed.
End F.
