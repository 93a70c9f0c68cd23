(* Whole epochs, fit and predict. *)
From Coq Require Import Lia Lra.
From Verif Require Import Base.RUtil Model.Fit Spec.FitSpec Proofs.FitP Proofs.FitScan.
Open Scope list_scope.

Lemma flat_map_repeat {A B} (f : A -> list B) x n : flat_map f (repeat x n) = concat (repeat (f x) n).
Proof. induction n as [|n IH]; [reflexivity|]. cbn. now rewrite IH. Qed.
Lemma losses_blank n : losses (repeat blank n) = [].
Proof. induction n as [|n IH]; [reflexivity|]. cbn. exact IH. Qed.
Lemma doc_end_blank c train n : @doc_end unit unit c train true (repeat blank n) = doc_end c train true [].
Proof. unfold doc_end, mean_loss. now rewrite losses_blank. Qed.

(* ---- invariants: R holds all the way, Q after an exception ---- *)
Section Pres.
Context {W I P : Type}.
Definition pres (R Q : st W I P -> Prop) {A} (m : M W I P A) : Prop :=
  forall s r s', m s = (r, s') -> R s -> match r with Ok _ => R s' | Err _ => Q s' end.
Lemma pres_bind R Q {A B} (m : M W I P A) (k : A -> M W I P B) : pres R Q m -> (forall a, pres R Q (k a)) -> pres R Q (seqM m k).
Proof.
  intros H1 H2 s r s' H HR. unfold seqM in H. destruct (m s) as [[a|e] s1] eqn:E.
  - exact (H2 a s1 r s' H (H1 _ _ _ E HR)).
  - injection H as <- <-. exact (H1 _ _ _ E HR).
Qed.
Lemma pres_ret R Q {A} (a : A) : pres R Q (ret a). Proof. now intros s r s' [= <- <-]. Qed.
Lemma pres_getf R Q {A} (g : fp P -> A) : pres R Q (getf g). Proof. now intros s r s' [= <- <-]. Qed.
Lemma pres_each R Q {A} (f : A -> M W I P unit) l : (forall a, In a l -> pres R Q (f a)) -> pres R Q (each f l).
Proof. induction l as [|a l IH]; intros H; cbn [each]; [apply pres_ret|]. apply pres_bind; [apply H; now left|]. intros _. apply IH. intros x Hx. apply H. now right. Qed.

(* an invariant kept by the parts keeps through the loop *)
Variable Env : env W I P.
Variable cbs : list nat.
Variables R Q : st W I P -> Prop.
Hypothesis RQ : forall s, R s -> Q s.
Lemma pres_raise {A} e : pres R Q (@raise W I P A e). Proof. intros s r s' [= <- <-]. apply RQ. Qed.
Lemma pres_need {A} (o : option A) e : pres R Q (need o e). Proof. destruct o; [apply pres_ret|apply pres_raise]. Qed.
Lemma pres_quotient n b : pres R Q (quotient n b). Proof. unfold quotient. destruct (Nat.eqb b 0); [apply pres_raise|apply pres_ret]. Qed.
Lemma pres_multiple n b : pres R Q (is_multiple n b). Proof. unfold is_multiple. destruct (Nat.eqb b 0); [apply pres_raise|apply pres_ret]. Qed.
Hypothesis Remit : forall i, op Env i = None -> (forall k e, i <> Call k e) -> pres R Q (emit i).
Hypothesis Ract : forall i g, op Env i = Some g -> is_step i = false -> pres R Q (act i g).
Hypothesis Rupdate : pres R Q (update Env cbs).
Hypothesis Rnext : forall d i, pres R Q (world (e_next Env d i)).
Hypothesis Rpredict : pres R Q (world (e_predict Env)).
Hypothesis Rlossw : forall f p, e_loss Env = Some f -> pres R Q (world (f p)).
Hypothesis Rcb : forall k e, In k cbs -> pres R Q (seqM (emit (Call k e)) (fun _ => run_cb Env k e)).
Hypothesis Rstate : forall x, pres R Q (modf (set_state x)).
Hypothesis Repoch : pres R Q (modf (fun f => set_epoch (S (f_epoch f)) f)).
Hypothesis Rloss : forall g : fp P -> option Rdefinitions.R, pres R Q (modf (fun f => set_loss (g f) f)).
Hypothesis Rmean : forall x, pres R Q (modf (set_mean x)).
Hypothesis Rid : forall x, pres R Q (modf (set_volume_id x)).
Hypothesis Rpred : forall x, pres R Q (modf (set_pred x)).
Lemma gen_call e : pres R Q (call Env cbs e).
Proof. apply pres_each. intros k Hk. now apply Rcb. Qed.
Ltac go :=
  repeat first
    [ exact Rupdate | apply pres_ret | apply pres_raise | apply pres_quotient | apply pres_multiple | apply pres_getf | apply pres_need
    | (apply Ract; reflexivity) | apply gen_call | (apply Remit; [reflexivity|discriminate]) | apply Rnext | apply Rpredict | (eapply Rlossw; reflexivity)
    | apply Rstate | apply Repoch | apply Rloss | apply Rmean | apply Rid | apply Rpred | apply (Rloss (fun _ => None))
    | apply pres_bind; [|intros ?]
    | apply pres_each; intros ? ?
    | match goal with |- pres _ _ (match ?x with _ => _ end) => destruct x end ].
Lemma gen_volume : pres R Q (scan_volume Env cbs).
Proof. unfold scan_volume, mu_batch, add_loss. go. Qed.
Lemma gen_scan d : forall m i, pres R Q (scan_from Env cbs d m i).
Proof.
  induction m as [|m IH]; intros i; cbn [scan_from]; [apply pres_ret|].
  unfold batch_begin, batch_end. repeat first [ apply gen_volume | exact Rupdate | apply IH | progress go ].
Qed.
Lemma gen_epochs validate n : pres R Q (fit_epochs Env cbs validate n).
Proof.
  induction n as [|n IH]; cbn [fit_epochs]; [apply pres_ret|].
  unfold fit_epoch, run_epoch, scan_volumes. repeat first [ apply gen_scan | apply IH | progress go ].
Qed.
Lemma gen_body validate : pres R Q (fit_body Env cbs validate).
Proof. unfold fit_body. repeat first [ apply gen_epochs | progress go ]. Qed.
Lemma gen_predict : pres R Q (predict_body Env cbs).
Proof. unfold predict_body, scan_volumes. repeat first [ apply gen_scan | progress go ]. Qed.
End Pres.

(* fit_params.stop *)
Section Stop.
Context {W I P : Type}.
Variable Env : env W I P.
Variable cbs : list nat.
Hypothesis HC : calm Env cbs.
Definition going (s : st W I P) : Prop := f_stop (s_fp s) = false.
Lemma pres_any (R : st W I P -> Prop) {A} (m : M W I P A) : (forall s r s', m s = (r, s') -> R s -> R s') -> pres R R m.
Proof. intros H s r s' E HR. destruct r; exact (H _ _ _ E HR). Qed.
Lemma any_pres (R : st W I P -> Prop) {A} (m : M W I P A) : pres R R m -> forall s r s', m s = (r, s') -> R s -> R s'.
Proof. intros H s r s' E HR. specialize (H _ _ _ E HR). now destruct r. Qed.
Lemma going_emit i : pres going going (@emit W I P i). Proof. apply pres_any. now intros s r s' [= <- <-]. Qed.
Lemma going_cb k e : In k cbs -> pres going going (seqM (emit (Call k e)) (fun _ => run_cb Env k e)).
Proof.
  intros Hk. apply pres_bind; [apply going_emit|intros _]. apply pres_any. intros s r s'. unfold run_cb.
  destruct (e_cb Env k e (s_fp s, s_w s)) as [q [f w]] eqn:E. intros [= <- <-] H. unfold going in *. cbn.
  destruct (HC _ _ _ _ _ _ _ Hk E) as [_ ->]. exact H.
Qed.
Lemma going_world A (g : W -> res A * W) : pres going going (@world W I P A g).
Proof. apply pres_any. intros s r s'. unfold world. destruct (g (s_w s)). now intros [= <- <-]. Qed.
Lemma going_act i g : pres going going (@act W I P i g).
Proof. apply pres_bind; [apply going_emit|intros _; apply going_world]. Qed.
Lemma going_modf g : (forall f, f_stop (g f) = f_stop f) -> pres going going (@modf W I P g).
Proof. intros Hg. apply pres_any. intros s r s' [= <- <-]. unfold going. cbn. now rewrite Hg. Qed.
Lemma going_call e : pres going going (call Env cbs e).
Proof. apply gen_call; auto using going_cb. Qed.
Lemma going_update : pres going going (update Env cbs).
Proof.
  unfold update. repeat first [ apply going_call | apply pres_getf | apply pres_ret | apply going_act | apply going_world
    | apply pres_bind; [|intros ?] | match goal with |- pres _ _ (match ?x with _ => _ end) => destruct x end ].
Qed.
Lemma going_epochs validate n : pres going going (fit_epochs Env cbs validate n).
Proof. apply gen_epochs; auto using going_emit, going_world, going_cb, going_update, going_act; intros; apply going_modf; reflexivity. Qed.
End Stop.

(* updates are never made without zeroing the gradients *)
Section Balance.
Context {W I P : Type}.
Variable Env : env W I P.
Variable cbs : list nat.
Definition bal (k : nat) (s : st W I P) : Prop := (count is_step (s_tr s) + k <= count is_zero (s_tr s))%nat.
Lemma count_app {A B} (p : item A B -> bool) l m : count p (l ++ m) = (count p l + count p m)%nat.
Proof. unfold count. now rewrite filter_app, app_length. Qed.
Lemma bal_world k A (g : W -> res A * W) : pres (bal k) (bal k) (@world W I P A g).
Proof. apply pres_any. intros s r s'. unfold world. destruct (g (s_w s)). now intros [= <- <-]. Qed.
Lemma bal_modf k g : pres (bal k) (bal k) (@modf W I P g).
Proof. apply pres_any. now intros s r s' [= <- <-]. Qed.
Lemma bal_emit k i : is_step i = false -> pres (bal k) (bal k) (@emit W I P i).
Proof.
  intros Hi. apply pres_any. intros s r s' [= <- <-]. unfold bal. cbn [s_tr]. rewrite !count_app.
  replace (count is_step [i]) with 0%nat by (unfold count; cbn [filter]; now rewrite Hi).
  intros H. lia.
Qed.
Lemma bal_emit_none k i : op Env i = None -> (forall n e, i <> Call n e) -> pres (bal k) (bal k) (emit i).
Proof. intros H _. apply bal_emit. destruct i; try reflexivity. discriminate. Qed.
Lemma bal_cb k n e : pres (bal k) (bal k) (seqM (emit (Call n e)) (fun _ => run_cb Env n e)).
Proof.
  apply pres_bind; [now apply bal_emit|intros _]. apply pres_any.
  intros s r s'. unfold run_cb. destruct (e_cb Env n e (s_fp s, s_w s)) as [q [f w]]. now intros [= <- <-].
Qed.
Lemma bal_call k e : pres (bal k) (bal k) (call Env cbs e).
Proof. apply gen_call; auto using bal_cb. Qed.
Lemma bal_act k i g : is_step i = false -> pres (bal k) (bal k) (@act W I P i g).
Proof. intros H. apply pres_bind; [now apply bal_emit|intros _; apply bal_world]. Qed.
Lemma bal_update : pres (bal 0) (bal 0) (update Env cbs).
Proof.
  apply pres_any. unfold update. intros s r s' H HR.
  assert (Hd : forall s, bal 1 s -> bal 0 s) by (unfold bal; intros; lia).
  unfold seqM at 1 in H. destruct (act ZeroGrad (e_zero_grad Env) s) as [r1 s1] eqn:E1.
  assert (H1 : bal 1 s1).
  { unfold act, seqM, emit in E1. apply (any_pres _ _ (bal_world 1 _ _) _ _ _ E1). unfold bal in *. cbn [s_tr]. rewrite !count_app. cbn. lia. }
  destruct r1 as [[]|e]; [|injection H as <- <-; auto].
  unfold seqM at 1 in H. destruct (call Env cbs BackwardsBegin s1) as [r2 s2] eqn:E2. pose proof (any_pres _ _ (bal_call 1 _) _ _ _ E2 H1) as H2.
  destruct r2 as [[]|e]; [|injection H as <- <-; auto].
  unfold seqM at 1 in H. unfold getf at 1 in H. unfold seqM at 1 in H.
  destruct (match f_mean (s_fp s2) with Some l => act (Backward l) (e_backward Env l) | None => ret tt end s2) as [r3 s3] eqn:E3.
  assert (H3 : bal 1 s3).
  { destruct (f_mean (s_fp s2)); [exact (any_pres _ _ (bal_act 1 (Backward _) _ eq_refl) _ _ _ E3 H2)|].
    injection E3 as _ <-. exact H2. }
  destruct r3 as [[]|e]; [|injection H as <- <-; auto].
  unfold seqM at 1 in H. destruct (call Env cbs BackwardsEnd s3) as [r4 s4] eqn:E4. pose proof (any_pres _ _ (bal_call 1 _) _ _ _ E4 H3) as H4.
  destruct r4 as [[]|e]; [|injection H as <- <-; auto].
  unfold seqM at 1 in H. unfold getf at 1 in H. unfold seqM at 1 in H. unfold getf at 1 in H. unfold seqM at 1 in H.
  destruct (match f_mean (s_fp s4) with Some _ => if f_skip (s_fp s4) then ret tt else act Step (e_step Env) | None => ret tt end s4) as [r5 s5] eqn:E5.
  assert (H5 : bal 0 s5).
  { destruct (f_mean (s_fp s4)); [|injection E5 as _ <-; auto].
    destruct (f_skip (s_fp s4)); [injection E5 as _ <-; auto|].
    unfold act, seqM, emit in E5. apply (any_pres _ _ (bal_world 0 _ _) _ _ _ E5). unfold bal in *. cbn [s_tr]. rewrite !count_app. cbn. lia. }
  destruct r5 as [[]|e]; [|injection H as <- <-; auto].
  unfold seqM at 1 in H. destruct (call Env cbs StepEnd s5) as [r6 s6] eqn:E6. pose proof (any_pres _ _ (bal_call 0 _) _ _ _ E6 H5) as H6.
  destruct r6 as [[]|e]; [|injection H as <- <-; auto].
  exact (any_pres _ _ (bal_act 0 Conform _ eq_refl) _ _ _ H H6).
Qed.
Lemma bal_body validate : pres (bal 0) (bal 0) (fit_body Env cbs validate).
Proof. apply gen_body; auto using bal_emit_none, bal_world, bal_cb, bal_update, bal_modf, bal_act. Qed.
Lemma bal_predict : pres (bal 0) (bal 0) (predict_body Env cbs).
Proof. apply gen_predict; auto using bal_emit_none, bal_world, bal_cb, bal_update, bal_modf, bal_act. Qed.
End Balance.

(* an exception is never swallowed *)
Section Raised.
Context {W I P : Type}.
Variable Env : env W I P.
Variable cbs : list nat.
Definition fine (s : st W I P) : Prop := Forall (succeeds Env) (s_tr s).
Definition anything (s : st W I P) : Prop := True.
Lemma fine_keep {A} (m : M W I P A) : (forall s a s', m s = (Ok a, s') -> s_tr s' = s_tr s) -> pres fine anything m.
Proof. intros H s r s' E HR. destruct r as [a|e]; [|exact Logic.I]. unfold fine. rewrite (H _ _ _ E). exact HR. Qed.
Lemma fine_world A (g : W -> res A * W) : pres fine anything (@world W I P A g).
Proof. apply fine_keep. intros s a s'. unfold world. destruct (g (s_w s)). now intros [= -> <-]. Qed.
Lemma fine_modf g : pres fine anything (@modf W I P g).
Proof. apply fine_keep. now intros s r s' [= <- <-]. Qed.
Lemma fine_emit i : op Env i = None -> (forall n e, i <> Call n e) -> pres fine anything (emit i).
Proof.
  intros H1 H2 s r s' [= <- <-] HR. unfold fine. cbn [s_tr]. apply Forall_app. split; [exact HR|]. constructor; [|constructor].
  unfold succeeds. rewrite H1. destruct i; try exact Logic.I. now destruct (H2 cb e).
Qed.
Lemma fine_act i g : op Env i = Some g -> pres fine anything (act i g).
Proof.
  intros H1 s r s'. unfold act, seqM, emit, world. cbn [s_w s_fp s_tr]. destruct (g (s_w s)) as [q w] eqn:E. intros [= <- <-] HR.
  destruct q as [[]|e]; [|exact Logic.I]. unfold fine. cbn [s_tr]. apply Forall_app. split; [exact HR|]. constructor; [|constructor].
  unfold succeeds. rewrite H1. destruct i; try discriminate H1; now exists (s_w s), w.
Qed.
Lemma fine_cb k e : pres fine anything (seqM (emit (Call k e)) (fun _ => run_cb Env k e)).
Proof.
  intros s r s'. unfold seqM, emit, run_cb. cbn [s_w s_fp s_tr]. destruct (e_cb Env k e (s_fp s, s_w s)) as [q [f w]] eqn:E. intros [= <- <-] HR.
  destruct q as [[]|x]; [|exact Logic.I]. unfold fine. cbn [s_tr]. apply Forall_app. split; [exact HR|]. constructor; [|constructor].
  cbn. now exists (s_fp s, s_w s), (f, w).
Qed.
Lemma fine_call e : pres fine anything (call Env cbs e).
Proof. apply gen_call; auto using fine_cb. Qed.
Lemma fine_update : pres fine anything (update Env cbs).
Proof.
  unfold update. repeat first [ apply fine_call | apply pres_getf | apply pres_ret | (apply fine_act; reflexivity)
    | apply pres_bind; [|intros ?] | match goal with |- pres _ _ (match ?x with _ => _ end) => destruct x end ].
Qed.
Lemma fine_body validate : pres fine anything (fit_body Env cbs validate).
Proof. apply gen_body; unfold anything; auto using fine_emit, fine_world, fine_cb, fine_update, fine_modf, fine_act. Qed.
Lemma fine_predict : pres fine anything (predict_body Env cbs).
Proof. apply gen_predict; unfold anything; auto using fine_emit, fine_world, fine_cb, fine_update, fine_modf, fine_act. Qed.
End Raised.

Section S.
Context {W I P : Type}.
Notation items := (list (item I P)).
Variable Env : env W I P.
Variable c : cfg.
Notation cbs := (c_cbs c).
Notation b := (c_bs c).
Hypothesis HT : tame Env cbs.
Hypothesis Hb0 : (0 < b)%nat.

Lemma batches_spec d r : (r < b)%nat -> forall q i s,
  agrees c (s_fp s) -> f_passive_bs (s_fp s) = Some b -> test_of (s_fp s) = false -> (i mod b = 0)%nat -> e_len Env d = (i + (S q * b + r))%nat ->
  spec (scan_from Env cbs d (S q * b + r) i) s (concat (repeat (doc_batch c (train_of (s_fp s)) true (repeat blank b)) (S q)))
    (fun _ s' t => kept (s_fp s) (s_fp s') /\ exists bs, length bs = S q /\ Forall (fun vs => length vs = b) bs /\
       Forall (Forall (loss_iff (has_loss Env))) bs /\ t = flat_map (doc_batch c (train_of (s_fp s)) (f_skip (s_fp s))) bs).
Proof.
  intros Hr. induction q as [|q IH]; intros i s Ha Hb Ht Hi Hlen.
  - replace (1 * b + r)%nat with (b + r)%nat in * by lia.
    eapply spec_conseq.
    { apply (batch_tail Env c HT d b r i []) with (E := []) (Q := fun _ s' t => kept (s_fp s) (s_fp s') /\ exists bs, length bs = 1%nat /\ Forall (fun vs => length vs = b) bs /\
       Forall (Forall (loss_iff (has_loss Env))) bs /\ t = flat_map (doc_batch c (train_of (s_fp s)) (f_skip (s_fp s))) bs); [exact Ha|exact Hb|exact Ht| | | | | |].
      - lia.
      - cbn. lia.
      - replace (i + b)%nat with (i + 1 * b)%nat by lia. rewrite Nat.mod_add by lia. exact Hi.
      - lia.
      - lia.
      - intros vs s' t Hvs Fvs K ->. replace (Nat.ltb r b) with true by (symmetry; apply Nat.ltb_lt; lia). split; [reflexivity|].
        split; [exact K|]. exists [vs]. rewrite Nat.eqb_refl. cbn [app length flat_map]. rewrite app_nil_r. auto 10. }
    + cbn [repeat concat]. unfold doc_batch. rewrite Nat.eqb_refl, flat_map_repeat, doc_end_blank. flat. reflexivity.
    + auto.
  - replace (S (S q) * b + r)%nat with (b + (S q * b + r))%nat in * by lia.
    assert (Hi' : ((i + b) mod b = 0)%nat) by (replace (i + b)%nat with (i + 1 * b)%nat by lia; rewrite Nat.mod_add by lia; exact Hi).
    eapply spec_conseq.
    { apply (batch_tail Env c HT d b (S q * b + r) i []) with (E := concat (repeat (doc_batch c (train_of (s_fp s)) true (repeat blank b)) (S q)))
       (Q := fun _ s' t => kept (s_fp s) (s_fp s') /\ exists bs, length bs = S (S q) /\ Forall (fun vs => length vs = b) bs /\
       Forall (Forall (loss_iff (has_loss Env))) bs /\ t = flat_map (doc_batch c (train_of (s_fp s)) (f_skip (s_fp s))) bs); [exact Ha|exact Hb|exact Ht| | | | | |].
      - lia.
      - cbn. lia.
      - exact Hi'.
      - lia.
      - lia.
      - intros vs s' t Hvs Fvs K ->. replace (Nat.ltb (S q * b + r) b) with false by (symmetry; apply Nat.ltb_ge; cbn; lia).
        assert (Ht' : train_of (s_fp s') = train_of (s_fp s)) by (unfold train_of; destruct K as [(K & _) _]; now rewrite K).
        eapply spec_conseq.
        { apply IH.
          - eapply agrees_fixed; [exact (proj1 K)|exact Ha].
          - destruct K as [(_ & _ & K & _) _]. congruence.
          - unfold test_of in *. destruct K as [(K & _) _]. now rewrite K.
          - exact Hi'.
          - lia. }
        { now rewrite Ht'. }
        intros [] s2 t2 (K2 & bs & H1 & H2 & H3 & ->). split; [now apply kept_trans with (s_fp s')|].
        exists (vs :: bs). split; [cbn; now rewrite H1|]. split; [now constructor|]. split; [now constructor|].
        rewrite Nat.eqb_refl, Ht'. destruct K as [_ K]. rewrite K. cbn [flat_map]. unfold doc_batch at 2. flat. reflexivity. }
    + cbn [repeat concat]. unfold doc_batch at 3. rewrite Nat.eqb_refl, flat_map_repeat, doc_end_blank. flat. reflexivity.
    + auto.
Qed.

Lemma scan_spec d s : agrees c (s_fp s) -> f_passive_bs (s_fp s) = Some b -> test_of (s_fp s) = false ->
  spec (scan_volumes Env cbs d) s (doc_scan c (train_of (s_fp s)) true (blank_scan b (e_len Env d)))
    (fun _ s' t => kept (s_fp s) (s_fp s') /\ exists sc, scan_shape c (e_len Env d) sc /\
       Forall (loss_iff (has_loss Env)) (scan_vols sc) /\ t = doc_scan c (train_of (s_fp s)) (f_skip (s_fp s)) sc).
Proof.
  intros Ha Hb Ht. unfold scan_volumes. set (n := e_len Env d). unfold scan_shape, doc_scan, blank_scan, scan_vols. cbn [sc_batches sc_rest].
  destruct (Nat.ltb_spec n b) as [Hn|Hn].
  - rewrite Nat.div_small by exact Hn. cbn [repeat flat_map app].
    eapply spec_conseq; [apply short_tail; auto| |].
    + destruct n; [reflexivity|]. cbn [Nat.eqb negb andb]. rewrite <- flat_map_repeat. reflexivity.
    + intros [] s' t (K & vs & Hv & Fv & ->). split; [exact K|]. exists (Scan [] vs). cbn [sc_batches sc_rest concat app flat_map]. split; [|split].
      * auto.
      * exact Fv.
      * destruct vs as [|v vs]; cbn [length] in Hv; rewrite <- Hv; reflexivity.
  - set (q := (n / b)%nat). assert (Hq : (n = q * b + n mod b)%nat) by (unfold q; pose proof (Nat.div_mod n b); lia).
    assert (Hq1 : (1 <= q)%nat) by (unfold q; apply Nat.div_le_lower_bound; lia).
    destruct q as [|q]; [lia|]. rewrite Hq at 1.
    eapply spec_conseq.
    { apply batches_spec; auto.
      - apply Nat.mod_upper_bound. lia.
      - apply Nat.mod_0_l. lia. }
    + rewrite <- flat_map_repeat. now rewrite app_nil_r.
    + intros [] s' t (K & bs & H1 & H2 & H3 & ->). split; [exact K|]. exists (Scan bs []). cbn [sc_batches sc_rest]. split; [|split].
      * auto.
      * rewrite app_nil_r. apply Forall_concat. exact H3.
      * now rewrite app_nil_r.
Qed.

(* settings *)
Definition set_up (f : fp P) : Prop := agrees c f /\ f_passive_bs f = Some b.
Lemma same_set_up f f' : same Env c f f' -> set_up f -> set_up f'.
Proof. unfold same, fixed, set_up, agrees. intuition congruence. Qed.
Lemma kept_set_up f f' : kept f f' -> set_up f -> set_up f'.
Proof. unfold kept, fixed, set_up, agrees. intuition congruence. Qed.

Lemma spec_run {A} (m : M W I P A) s E Q : spec m s E Q -> spec m s E (fun a s' l => Q a s' l /\ m s = (Ok a, s')).
Proof. intros H r s' Em. destruct (H r s' Em) as [l [H1 H2]]. exists l. split; [exact H1|]. destruct r; [|exact H2]. destruct H2. auto. Qed.
Lemma run_epoch_spec d s : set_up (s_fp s) -> test_of (s_fp s) = false ->
  spec (run_epoch Env cbs d) s (doc_run c (train_of (s_fp s)) true (blank_scan b (e_len Env d)))
    (fun _ s' t => set_up (s_fp s') /\ f_epoch (s_fp s') = f_epoch (s_fp s) /\ f_n_epochs (s_fp s') = f_n_epochs (s_fp s) /\
       exists skip sc, (exists s1, call Env cbs EpochBegin s = (Ok tt, s1) /\ skip = f_skip (s_fp s1)) /\
       (calm Env cbs -> skip = f_skip (s_fp s) /\ f_skip (s_fp s') = f_skip (s_fp s)) /\ scan_shape c (e_len Env d) sc /\
       Forall (loss_iff (has_loss Env)) (scan_vols sc) /\ t = doc_run c (train_of (s_fp s)) skip sc).
Proof.
  intros Hs Ht. unfold run_epoch.
  eapply spec_bind; [apply spec_run; apply (call_spec Env c HT)|intros [] s1 l1 ((K1 & C1 & ->) & R1)].
  assert (Hs1 : set_up (s_fp s1)) by (now apply same_set_up with (s_fp s)).
  assert (Ht1 : test_of (s_fp s1) = false) by (unfold test_of in *; destruct K1 as [(K & _) _]; now rewrite K).
  assert (Htr : train_of (s_fp s1) = train_of (s_fp s)) by (unfold train_of in *; destruct K1 as [(K & _) _]; now rewrite K).
  eapply spec_bind; [rewrite <- Htr; apply scan_spec; [apply Hs1|apply Hs1|exact Ht1]|].
  intros [] s2 l2 (K2 & sc & H1 & H2 & ->).
  eapply spec_conseq; [apply (call_spec Env c HT)|reflexivity|intros [] s3 l3 (K3 & C3 & ->)].
  split; [|split; [|split]].
  - apply same_set_up with (s_fp s2); [exact K3|]. now apply kept_set_up with (s_fp s1).
  - unfold same, kept, fixed in *. intuition congruence.
  - unfold same, kept, fixed in *. intuition congruence.
  - exists (f_skip (s_fp s1)), sc. rewrite Htr. split; [now exists s1|]. split; [|auto]. intros HC. destruct K2 as [_ K2]. rewrite C3, K2, C1 by auto. auto.
Qed.

(* s2: the state after on_epoch_begin of the training epoch that starts from s *)
Definition begun (s s2 : st W I P) : Prop :=
  exists w, call Env cbs EpochBegin (St (set_state (Some Train) (set_epoch (S (f_epoch (s_fp s))) (s_fp s))) w (s_tr s ++ [SetTrain])) = (Ok tt, s2)
    /\ e_train Env (s_w s) = (Ok tt, w).
Lemma fit_epoch_spec validate s : set_up (s_fp s) ->
  spec (fit_epoch Env cbs validate) s (doc_epoch c (blank_epoch validate b (e_len Env TrnData) (e_len Env ValData)))
    (fun _ s' t => set_up (s_fp s') /\ f_epoch (s_fp s') = S (f_epoch (s_fp s)) /\ f_n_epochs (s_fp s') = f_n_epochs (s_fp s) /\
       exists x, (exists s2, begun s s2 /\ ep_skip x = f_skip (s_fp s2)) /\ (calm Env cbs -> ep_skip x = f_skip (s_fp s) /\ f_skip (s_fp s') = f_skip (s_fp s)) /\
         epoch_shape c validate (e_len Env TrnData) (e_len Env ValData) x /\
         Forall (loss_iff (has_loss Env)) (epoch_vols x) /\ t = doc_epoch c x).
Proof.
  intros Hs. unfold fit_epoch, doc_epoch, blank_epoch. cbn [ep_skip ep_train ep_valid].
  eapply spec_conseq with (E := [] ++ [SetTrain] ++ [] ++ doc_run c true true (blank_scan b (e_len Env TrnData)) ++
      (if validate then [SetEval] ++ [] ++ doc_run c false true (blank_scan b (e_len Env ValData)) else [])).
  2: { cbn [app]. destruct validate; reflexivity. }
  2: { intros a s' t H. exact H. }
  eapply spec_bind; [apply spec_run; apply spec_modf|intros [] s1 l1 ((H1 & ->) & R1)].
  eapply spec_bind; [apply spec_run; apply spec_act|intros [] s2 l2 ((H2 & ->) & R2)].
  eapply spec_bind; [apply spec_run; apply spec_modf|intros [] s3 l3 ((H3 & ->) & R3)].
  assert (Hf : s_fp s3 = set_state (Some Train) (set_epoch (S (f_epoch (s_fp s))) (s_fp s))) by (now rewrite H3, H2, H1).
  assert (Hs3 : set_up (s_fp s3)) by (rewrite Hf; exact Hs).
  eapply spec_bind.
  { replace true with (train_of (s_fp s3)) at 1 by (now rewrite Hf). apply run_epoch_spec; [exact Hs3|now rewrite Hf]. }
  intros [] s4 l4 (Hs4 & E4 & N4 & skip & sc & B4 & C4 & Sh & Fl & ->).
  assert (B : exists s2, begun s s2 /\ skip = f_skip (s_fp s2)).
  { destruct B4 as [s5 [B5 B6]]. exists s5. split; [|exact B6]. unfold modf in R1, R3. injection R1 as <-. unfold act, seqM, emit, world in R2. cbn [s_w s_fp s_tr] in R2.
    destruct (e_train Env (s_w s)) as [q w] eqn:Et. injection R2 as -> <-. injection R3 as <-. exists w. cbn [s_w s_fp s_tr] in B5. auto. }
  replace (train_of (s_fp s3)) with true in * by (now rewrite Hf).
  assert (E4' : f_epoch (s_fp s4) = S (f_epoch (s_fp s))) by (rewrite E4, Hf; reflexivity).
  assert (N4' : f_n_epochs (s_fp s4) = f_n_epochs (s_fp s)) by (rewrite N4, Hf; reflexivity).
  destruct validate.
  - eapply spec_bind; [apply spec_act|intros [] s5 l5 (H5 & ->)].
    eapply spec_bind; [apply spec_modf|intros [] s6 l6 (H6 & ->)].
    assert (Hf6 : s_fp s6 = set_state (Some Valid) (s_fp s4)) by (now rewrite H6, H5).
    eapply spec_conseq.
    { apply run_epoch_spec; [rewrite Hf6; exact Hs4|now rewrite Hf6]. }
    { replace (train_of (s_fp s6)) with false by (now rewrite Hf6). reflexivity. }
    intros [] s7 l7 (Hs7 & E7 & N7 & skip' & sc' & _ & C7 & Sh' & Fl' & ->).
    split; [exact Hs7|]. split; [rewrite E7, Hf6; exact E4'|]. split; [rewrite N7, Hf6; exact N4'|].
    exists (Epoch skip sc (Some sc')). unfold epoch_shape, epoch_vols. cbn [ep_skip ep_train ep_valid].
    split; [exact B|]. split; [intros HC; destruct (C4 HC) as [C41 C42]; destruct (C7 HC) as [_ C72]; rewrite Hf6 in C72; cbn in C72; rewrite Hf in C41, C42; cbn in C41, C42; split; congruence|].
    split; [auto|]. split; [now apply Forall_app|].
    replace (train_of (s_fp s6)) with false by (now rewrite Hf6).
    assert (Hv : doc_run c false skip' sc' = doc_run c false skip sc') by reflexivity. rewrite Hv. unfold doc_epoch. cbn [ep_skip ep_train ep_valid].
    cbn [app]. reflexivity.
  - apply spec_ret. split; [exact Hs4|]. split; [exact E4'|]. split; [exact N4'|].
    exists (Epoch skip sc None). unfold epoch_shape, epoch_vols. cbn [ep_skip ep_train ep_valid]. rewrite app_nil_r.
    split; [exact B|]. split; [intros HC; destruct (C4 HC) as [C41 C42]; rewrite Hf in C41, C42; exact (conj C41 C42)|]. auto.
Qed.

(* J: what holds before the epochs, given what was done before; sk: what it says about skip_opt_step in the epoch *)
Definition epoch_inv validate (J : st W I P -> Prop) (sk : list (item I P) -> bool) : Prop :=
  forall s s', J s -> fit_epoch Env cbs validate s = (Ok tt, s') -> J s' /\ forall s2, begun s s2 -> f_skip (s_fp s2) = sk (s_tr s).
Definition bep validate := blank_epoch validate b (e_len Env TrnData) (e_len Env ValData).
Lemma fit_epochs_spec validate : forall n s r s', set_up (s_fp s) -> fit_epochs Env cbs validate n s = (r, s') ->
  exists l, s_tr s' = s_tr s ++ l /\
    match r with
    | Ok _ => set_up (s_fp s') /\ f_n_epochs (s_fp s') = f_n_epochs (s_fp s) /\
        exists xs, (length xs <= n)%nat /\ (length xs = n \/ (0 < length xs)%nat /\ f_stop (s_fp s') = true) /\
          f_epoch (s_fp s') = (length xs + f_epoch (s_fp s))%nat /\
          (calm Env cbs -> Forall (fun x => ep_skip x = f_skip (s_fp s)) xs /\ f_skip (s_fp s') = f_skip (s_fp s)) /\
          (forall J sk, epoch_inv validate J sk -> J s ->
             J s' /\ forall i x, nth_error xs i = Some x -> ep_skip x = sk (s_tr s ++ flat_map (doc_epoch c) (firstn i xs))) /\
          Forall (epoch_shape c validate (e_len Env TrnData) (e_len Env ValData)) xs /\
          Forall (fun x => Forall (loss_iff (has_loss Env)) (epoch_vols x)) xs /\ l = flat_map (doc_epoch c) xs /\
          skeleton l = flat_map (doc_epoch c) (repeat (bep validate) (length xs))
    | Err _ => prefix (skeleton l) (flat_map (doc_epoch c) (repeat (bep validate) n))
    end.
Proof.
  induction n as [|n IH]; intros s r s' Hs H.
  - injection H as <- <-. exists []. rewrite app_nil_r. split; [reflexivity|]. split; [exact Hs|]. split; [reflexivity|].
    exists []. cbn. do 4 (split; [now auto|]). split; [|auto]. intros J sk _ HJ. split; [exact HJ|]. intros [|i] x; discriminate.
  - cbn [fit_epochs] in H. unfold seqM at 1 in H. destruct (fit_epoch Env cbs validate s) as [r1 s1] eqn:E1.
    destruct (fit_epoch_spec validate s Hs r1 s1 E1) as [l1 [Hl1 H1]].
    destruct r1 as [[]|e].
    + destruct H1 as [Sk1 (Hs1 & Ep1 & N1 & x & B1 & C1 & Sh & Fl & ->)].
      unfold seqM, getf in H. destruct (f_stop (s_fp s1)) eqn:Est.
      * injection H as <- <-. exists (doc_epoch c x). split; [exact Hl1|]. split; [exact Hs1|]. split; [exact N1|].
        exists [x]. split; [cbn; lia|]. split; [right; split; [cbn; lia|exact Est]|]. split; [exact Ep1|].
        split; [intros HC; destruct (C1 HC); auto|].
        split; [intros J sk HJ Js; destruct (HJ _ _ Js E1) as [J1 J2]; split; [exact J1|]; intros [|[|i]] y [= <-]; destruct B1 as [s2 [B1 ->]]; cbn [firstn flat_map]; rewrite app_nil_r; now apply J2|].
        split; [auto|]. split; [auto|]. cbn [flat_map length repeat]. rewrite !app_nil_r. auto.
      * destruct (IH s1 r s' Hs1 H) as [l2 [Hl2 H2]]. exists (doc_epoch c x ++ l2). split; [now rewrite Hl2, Hl1, app_assoc|].
        rewrite skel_app, Sk1. destruct r as [[]|e].
        -- destruct H2 as (Hs2 & N2 & xs & L1 & L2 & Ep2 & C2 & I2 & F1 & F2 & -> & Sk2). split; [exact Hs2|]. split; [congruence|].
           exists (x :: xs). cbn [length]. split; [lia|]. split; [destruct L2 as [L2|L2]; [left; lia|right; split; [lia|apply L2]]|].
           split; [rewrite Ep2, Ep1; lia|]. split; [intros HC; destruct (C1 HC) as [C11 C12]; destruct (C2 HC) as [C21 C22]; rewrite C12 in C21, C22; auto|].
           split; [intros J sk HJ Js; destruct (HJ _ _ Js E1) as [J1 J2]; destruct (I2 J sk HJ J1) as [I3 I4]; split; [exact I3|]; intros [|i] y Hy;
             [injection Hy as <-; destruct B1 as [s2 [B1 ->]]; cbn [firstn flat_map]; rewrite app_nil_r; now apply J2
             |cbn [firstn flat_map]; rewrite (I4 i y Hy), Hl1, app_assoc; reflexivity]|].
           split; [now constructor|]. split; [now constructor|].
           split; [reflexivity|]. cbn [repeat flat_map]. now rewrite Sk2.
        -- cbn [repeat flat_map]. now apply prefix_app_l.
    + injection H as <- <-. exists l1. split; [exact Hl1|]. cbn [repeat flat_map]. now apply prefix_app.
Qed.

Definition okstays (J : st W I P -> Prop) {A} (m : M W I P A) : Prop := forall s a s', m s = (Ok a, s') -> J s -> J s'.
Lemma fit_body_spec validate n s r s' : set_up (s_fp s) -> f_n_epochs (s_fp s) = Some n -> s_tr s = [] ->
  fit_body Env cbs validate s = (r, s') ->
  (exists e, (e <= n)%nat /\ prefix (skeleton (s_tr s')) (doc_fit c (repeat (bep validate) e))) /\
  (r = Ok tt -> exists xs, (length xs <= n)%nat /\ ((0 < n)%nat -> (0 < length xs)%nat) /\
     (calm Env cbs -> f_stop (s_fp s) = false -> length xs = n) /\ (calm Env cbs -> Forall (fun x => ep_skip x = f_skip (s_fp s)) xs) /\
     (forall (J : st W I P -> Prop) sk, epoch_inv validate J sk -> (forall e, okstays J (call Env cbs e)) -> J s ->
        J s' /\ forall i x, nth_error xs i = Some x -> ep_skip x = sk (on c SetWrapper ++ on c TrainBegin ++ flat_map (doc_epoch c) (firstn i xs))) /\
     Forall (epoch_shape c validate (e_len Env TrnData) (e_len Env ValData)) xs /\
     Forall (fun x => Forall (loss_iff (has_loss Env)) (epoch_vols x)) xs /\ s_tr s' = doc_fit c xs /\
     skeleton (s_tr s') = doc_fit c (repeat (bep validate) (length xs))).
Proof.
  intros Hs Hn Ht H. unfold fit_body in H. unfold seqM at 1 in H.
  destruct (call Env cbs SetWrapper s) as [r1 s1] eqn:E1.
  destruct (call_spec Env c HT SetWrapper s r1 s1 E1) as [l1 [Hl1 H1]]. rewrite Ht in Hl1. cbn [app] in Hl1.
  destruct r1 as [[]|e].
  2: { injection H as <- <-. split; [|discriminate]. exists 0%nat. split; [lia|]. rewrite Hl1. unfold doc_fit. now apply prefix_app. }
  destruct H1 as [Sk1 (K1 & C1 & ->)].
  unfold seqM at 1 in H. destruct (call Env cbs TrainBegin s1) as [r2 s2] eqn:E2.
  destruct (call_spec Env c HT TrainBegin s1 r2 s2 E2) as [l2 [Hl2 H2]].
  destruct r2 as [[]|e].
  2: { injection H as <- <-. split; [|discriminate]. exists 0%nat. split; [lia|]. rewrite Hl2, Hl1, skel_app, Sk1. unfold doc_fit. apply prefix_app_l. now apply prefix_app. }
  destruct H2 as [Sk2 (K2 & C2 & ->)].
  assert (Hs2 : set_up (s_fp s2)) by (apply same_set_up with (s_fp s1); [exact K2|now apply same_set_up with (s_fp s)]).
  assert (Hn2 : f_n_epochs (s_fp s2) = Some n) by (unfold same, fixed in *; intuition congruence).
  unfold seqM at 1 in H. unfold getf in H. rewrite Hn2 in H. unfold seqM at 1 in H. unfold need, ret in H.
  unfold seqM at 1 in H. destruct (fit_epochs Env cbs validate n s2) as [r3 s3] eqn:E3.
  destruct (fit_epochs_spec validate n s2 r3 s3 Hs2 E3) as [l3 [Hl3 H3]].
  destruct r3 as [[]|e].
  2: { injection H as <- <-. split; [|discriminate]. exists n. split; [lia|]. rewrite Hl3, Hl2, Hl1, !skel_app, Sk1, Sk2. unfold doc_fit.
       rewrite <- app_assoc. apply prefix_app_l. apply prefix_app_l. now apply prefix_app. }
  destruct H3 as (Hs3 & N3 & xs & L1 & L2 & Ep & C3 & I3 & F1 & F2 & -> & Sk3).
  destruct (call_spec Env c HT TrainEnd s3 r s' H) as [l4 [Hl4 H4]].
  assert (Htr : s_tr s' = ((on c SetWrapper ++ on c TrainBegin) ++ flat_map (doc_epoch c) xs) ++ l4) by (now rewrite Hl4, Hl3, Hl2, Hl1).
  assert (Hsk : skeleton (s_tr s') = ((on c SetWrapper ++ on c TrainBegin) ++ flat_map (doc_epoch c) (repeat (bep validate) (length xs))) ++ skeleton l4).
  { rewrite Htr, !skel_app, Sk1, Sk2, Sk3. reflexivity. }
  split.
  - exists (length xs). split; [exact L1|]. rewrite Hsk. unfold doc_fit. rewrite <- !app_assoc.
    do 3 apply prefix_app_l. destruct r as [a|e]; [destruct H4 as [-> _]; apply prefix_refl|exact H4].
  - intros ->. destruct H4 as [Sk4 (K4 & _ & ->)]. exists xs. split; [exact L1|]. split; [intros Hn0; destruct L2 as [L2|L2]; [lia|apply L2]|].
    split.
    { intros HC Hf. destruct L2 as [L2|[_ L2]]; [exact L2|]. exfalso.
      assert (Q1 : f_stop (s_fp s1) = false) by (exact (going_call Env cbs HC _ _ _ _ E1 Hf)).
      assert (Q2 : f_stop (s_fp s2) = false) by (exact (going_call Env cbs HC _ _ _ _ E2 Q1)).
      assert (Q3 : f_stop (s_fp s3) = false) by (exact (going_epochs Env cbs HC _ _ _ _ _ E3 Q2)).
      congruence. }
    split; [intros HC; destruct (C3 HC) as [C31 _]; rewrite C2, C1 in C31 by auto; exact C31|].
    split.
    { intros J sk HJ Hc Js. pose proof (Hc _ _ _ _ E1 Js) as J1. pose proof (Hc _ _ _ _ E2 J1) as J2. destruct (I3 J sk HJ J2) as [J3 I4].
      split; [exact (Hc _ _ _ _ H J3)|]. intros i x Hx. rewrite (I4 i x Hx), Hl2, Hl1, <- app_assoc. reflexivity. }
    split; [exact F1|]. split; [exact F2|]. split; [rewrite Htr; unfold doc_fit; now rewrite <- !app_assoc|].
    rewrite Hsk, Sk4. unfold doc_fit. now rewrite <- !app_assoc.
Qed.

(* ---- predict ---- *)
End S.

Section T.
Context {W I P : Type}.
Notation items := (list (item I P)).
Variable Env : env W I P.
Variable c : cfg.
Notation cbs := (c_cbs c).
Hypothesis HT : tame Env cbs.
Lemma scan_test_spec d : forall m i s, agrees c (s_fp s) -> f_state (s_fp s) = Some Test ->
  spec (scan_from Env cbs d m i) s (concat (repeat (doc_vol c blank) m))
    (fun _ s' t => agrees c (s_fp s') /\ f_state (s_fp s') = Some Test /\
       exists vs, length vs = m /\ Forall (fun v => v_loss v = None) vs /\ t = flat_map (doc_vol c) vs).
Proof.
  induction m as [|m IH]; intros i s Ha Hst; cbn [scan_from].
  - apply spec_ret. split; [exact Ha|]. split; [exact Hst|]. exists []. auto.
  - cbn [repeat concat].
    eapply spec_conseq.
    { eapply spec_bind; [apply spec_world|intros x s1 l1 (H1 & ->)].
      eapply spec_bind; [apply spec_modf|intros [] s2 l2 (H2 & ->)].
      eapply spec_bind with (E1 := []) (Q1 := fun _ s' t => s' = s2 /\ t = []).
      { unfold batch_begin. change (@nil (item unit unit)) with (@nil (item unit unit) ++ []).
        eapply spec_bind; [apply spec_getf|intros y s0 l0 (-> & -> & ->)].
        replace (f_state (s_fp s2)) with (Some Test) by (rewrite H2, H1; cbn; auto). apply spec_ret. auto. }
      intros [] s0 l0 (-> & ->).
      eapply spec_bind with (E1 := [Loaded tt]); [eapply spec_conseq; [apply spec_act|reflexivity|intros a s' t H; exact H]|intros [] s4 l4 (H4 & ->)].
      eapply spec_bind; [apply (call_still Env c HT); reflexivity|intros [] s5 l5 (H5 & ->)].
      assert (K5 : fixed (s_fp s) (s_fp s5)) by (rewrite H4, H2, H1 in H5; unfold still, same, fixed in *; cbn in H5; intuition).
      eapply spec_bind; [apply (scan_volume_spec Env c HT x); eapply agrees_fixed; [exact K5|exact Ha]|].
      intros [] s6 l6 (v & Hx & Hv & -> & H6 & _).
      eapply spec_bind; [apply (call_still Env c HT); reflexivity|intros [] s7 l7 (H7 & ->)].
      assert (K7 : fixed (s_fp s) (s_fp s7)) by (unfold after_vol, still, same, fixed in *; intuition congruence).
      assert (Hst7 : f_state (s_fp s7) = Some Test) by (destruct K7 as [K7 _]; congruence).
      assert (Ha7 : agrees c (s_fp s7)) by (eapply agrees_fixed; [exact K7|exact Ha]).
      eapply spec_bind with (E1 := []) (Q1 := fun stop s' t => stop = false /\ s' = s7 /\ t = []).
      { unfold batch_end. change (@nil (item unit unit)) with (@nil (item unit unit) ++ []).
        eapply spec_bind; [apply spec_getf|intros y s0 l0 (-> & -> & ->)]. rewrite Hst7. cbn [is_test]. apply spec_ret. auto. }
      intros stop s0 l0 (-> & -> & ->).
      eapply spec_conseq; [apply (IH (S i) s7 Ha7 Hst7)|reflexivity|intros [] s8 l8 (A8 & S8 & vs & L8 & F8 & ->)].
      instantiate (1 := fun _ s' t => agrees c (s_fp s') /\ f_state (s_fp s') = Some Test /\
       exists vs, length vs = S m /\ Forall (fun v => v_loss v = None) vs /\ t = flat_map (doc_vol c) vs). cbv beta.
      split; [exact A8|]. split; [exact S8|]. exists (v :: vs). split; [cbn; now rewrite L8|]. split.
      - constructor; [|exact F8]. unfold test_of in Hv. replace (f_state (s_fp s5)) with (Some Test) in Hv by (destruct K5 as [K5 _]; congruence).
        cbn in Hv. unfold loss_iff in Hv. destruct (v_loss v); [|reflexivity]. exfalso.
        assert (false = true /\ v_pred v <> None) by (apply Hv; discriminate). intuition discriminate.
      - cbn [flat_map]. unfold doc_vol, doc_vol_tail. rewrite Hx. flat. reflexivity. }
    + unfold doc_vol. cbn [blank v_item v_pred v_loss]. flat. reflexivity.
    + auto.
Qed.
Lemma predict_body_spec s r s' : agrees c (s_fp s) -> f_state (s_fp s) = Some Test -> s_tr s = [] ->
  predict_body Env cbs s = (r, s') ->
  prefix (skeleton (s_tr s')) (doc_predict c (repeat blank (e_len Env TstData))) /\
  (r = Ok tt -> exists vs, length vs = e_len Env TstData /\ Forall (fun v => v_loss v = None) vs /\ s_tr s' = doc_predict c vs).
Proof.
  intros Ha Hst Ht H.
  assert (Hsp : spec (predict_body Env cbs) s (doc_predict c (repeat blank (e_len Env TstData)))
    (fun _ s' t => exists vs, length vs = e_len Env TstData /\ Forall (fun v => v_loss v = None) vs /\ t = doc_predict c vs)).
  { unfold predict_body, doc_predict.
    eapply spec_bind; [apply (call_spec Env c HT)|intros [] s1 l1 (K1 & _ & ->)].
    eapply spec_bind; [apply spec_act|intros [] s2 l2 (K2 & ->)].
    eapply spec_bind; [apply (call_spec Env c HT)|intros [] s3 l3 (K3 & _ & ->)].
    assert (K : fixed (s_fp s) (s_fp s3)) by (rewrite K2 in K3; unfold same, fixed in *; intuition congruence).
    eapply spec_bind.
    { rewrite flat_map_repeat. apply scan_test_spec; [eapply agrees_fixed; [exact K|exact Ha]|destruct K as [K _]; congruence]. }
    intros [] s4 l4 (_ & _ & vs & L & F & ->).
    eapply spec_conseq; [apply (call_spec Env c HT)|reflexivity|intros [] s5 l5 (_ & _ & ->)].
    exists vs. auto. }
  destruct (Hsp r s' H) as [l [Hl Hr]]. rewrite Ht in Hl. cbn [app] in Hl. subst l. split.
  - destruct r as [a|e]; [destruct Hr as [-> _]; apply prefix_refl|exact Hr].
  - intros ->. destruct Hr as [_ Hr]. exact Hr.
Qed.
End T.
