(* The fit and predict loops follow the documented order, whatever the callbacks and the physics do. *)
From Coq Require Import Lia Lra.
From Verif Require Import Base.RUtil Model.Fit Spec.FitSpec.
Open Scope list_scope.

(* ---- prefixes and skeletons ---- *)
Lemma prefix_refl {A} (l : list A) : prefix l l.
Proof. exists []. now rewrite app_nil_r. Qed.
Lemma prefix_app {A} (l m r : list A) : prefix l m -> prefix l (m ++ r).
Proof. intros [x ->]. exists (x ++ r). now rewrite app_assoc. Qed.
Lemma prefix_app_l {A} (h l m : list A) : prefix l m -> prefix (h ++ l) (h ++ m).
Proof. intros [x ->]. exists x. now rewrite app_assoc. Qed.
Lemma prefix_nil {A} (m : list A) : prefix [] m.
Proof. now exists m. Qed.

Section P.
Context {W I P : Type}.
Notation items := (list (item I P)).
Lemma skel_app (a b : items) : skeleton (a ++ b) = skeleton a ++ skeleton b.
Proof. apply flat_map_app. Qed.
Lemma skel_on c e : skeleton (on c e : items) = on c e.
Proof. unfold on. induction (c_cbs c) as [|k l IH]; [reflexivity|]. cbn. now f_equal. Qed.

(* ---- what a command does to the trace ---- *)
Definition spec {A} (m : M W I P A) (s : st W I P) (E : list (item unit unit)) (Q : A -> st W I P -> items -> Prop) : Prop :=
  forall r s', m s = (r, s') -> exists l, s_tr s' = s_tr s ++ l /\
    match r with Ok a => skeleton l = E /\ Q a s' l | Err _ => prefix (skeleton l) E end.

Lemma spec_ret {A} (a : A) s (Q : A -> st W I P -> items -> Prop) : Q a s [] -> spec (ret a) s [] Q.
Proof. intros H r s' [= <- <-]. exists []. rewrite app_nil_r. repeat split. exact H. Qed.
Lemma spec_raise {A} e s E (Q : A -> st W I P -> items -> Prop) : spec (raise e) s E Q.
Proof. intros r s' [= <- <-]. exists []. rewrite app_nil_r. split; [reflexivity|]. apply prefix_nil. Qed.
Lemma spec_conseq {A} (m : M W I P A) s E E' (Q Q' : A -> st W I P -> items -> Prop) :
  spec m s E Q -> E = E' -> (forall a s' l, Q a s' l -> Q' a s' l) -> spec m s E' Q'.
Proof.
  intros H <- HQ r s' Hm. destruct (H r s' Hm) as [l [Hl Hr]]. exists l. split; [exact Hl|].
  destruct r; [|exact Hr]. destruct Hr as [Hs Hq]. split; [exact Hs|]. now apply HQ.
Qed.
Lemma spec_bind {A B} (m : M W I P A) (k : A -> M W I P B) s E1 E2 Q1 (Q : B -> st W I P -> items -> Prop) :
  spec m s E1 Q1 -> (forall a s1 l1, Q1 a s1 l1 -> spec (k a) s1 E2 (fun b s2 l2 => Q b s2 (l1 ++ l2))) ->
  spec (seqM m k) s (E1 ++ E2) Q.
Proof.
  intros H1 H2 r s' Hm. unfold seqM in Hm. destruct (m s) as [r1 s1] eqn:E.
  destruct (H1 r1 s1 E) as [l1 [Hl1 Hr1]].
  destruct r1 as [a|x].
  - destruct Hr1 as [Hs1 Hq1]. destruct (H2 a s1 l1 Hq1 r s' Hm) as [l2 [Hl2 Hr2]].
    exists (l1 ++ l2). split; [now rewrite Hl2, Hl1, app_assoc|]. rewrite skel_app, Hs1.
    destruct r as [b|x].
    + destruct Hr2 as [<- Hq]. now split.
    + now apply prefix_app_l.
  - injection Hm as <- <-. exists l1. split; [exact Hl1|]. now apply prefix_app.
Qed.
Lemma spec_getf {A} (g : fp P -> A) s : spec (getf g) s [] (fun a s' l => a = g (s_fp s) /\ s' = s /\ l = []).
Proof. intros r s' [= <- <-]. exists []. rewrite app_nil_r. auto. Qed.
Lemma spec_modf (g : fp P -> fp P) s : spec (modf g) s [] (fun _ s' l => s_fp s' = g (s_fp s) /\ l = []).
Proof. intros r s' [= <- <-]. exists []. cbn. rewrite app_nil_r. auto. Qed.
Lemma spec_emit (i : item I P) s : spec (emit i) s (skeleton [i]) (fun _ s' l => s_fp s' = s_fp s /\ l = [i]).
Proof. intros r s' [= <- <-]. exists [i]. cbn [s_tr s_fp]. auto. Qed.
Lemma spec_world {A} (g : W -> res A * W) s : spec (world g) s [] (fun a s' l => s_fp s' = s_fp s /\ l = []).
Proof.
  intros r s'. unfold world. destruct (g (s_w s)) as [q w]. intros [= <- <-]. exists []. cbn [s_tr s_fp]. rewrite app_nil_r.
  split; [reflexivity|]. destruct q; [auto|apply prefix_nil].
Qed.
Lemma spec_act (i : item I P) g s : spec (act i g) s (skeleton [i]) (fun _ s' l => s_fp s' = s_fp s /\ l = [i]).
Proof.
  unfold act. eapply spec_conseq; [eapply spec_bind; [apply spec_emit|]| |].
  - intros a s1 l1 [H1 ->]. eapply spec_conseq; [apply spec_world|reflexivity|].
    intros b s2 l2 [H2 ->]. instantiate (1 := fun _ s2 l => s_fp s2 = s_fp s /\ l = [i]). cbn. rewrite H2, H1. auto.
  - apply app_nil_r.
  - auto.
Qed.
Lemma spec_need {A} (o : option A) e s E (Q : A -> st W I P -> items -> Prop) :
  (forall a, o = Some a -> E = [] /\ Q a s []) -> spec (need o e) s E Q.
Proof. destruct o; intros H; [destruct (H a eq_refl) as [-> HQ]; now apply spec_ret|apply spec_raise]. Qed.

Variable Env : env W I P.
Variable c : cfg.
Notation cbs := (c_cbs c).
Hypothesis HT : tame Env cbs.

(* what stays the same *)
Definition fixed (f f' : fp P) : Prop :=
  f_state f' = f_state f /\ f_epoch f' = f_epoch f /\ f_passive_bs f' = f_passive_bs f /\ f_n_mu f' = f_n_mu f /\
  f_mu_bs f' = f_mu_bs f /\ f_n_epochs f' = f_n_epochs f.
Definition keeps_pred : Prop := forall k e f w f' w', In k cbs -> e_cb Env k e (f, w) = (Ok tt, (f', w')) -> f_pred f' = f_pred f.
Definition same (f f' : fp P) : Prop :=
  fixed f f' /\ f_loss f' = f_loss f /\ f_mean f' = f_mean f /\ (f_pred f' = None <-> f_pred f = None) /\ (keeps_pred -> f_pred f' = f_pred f).
Definition still (f f' : fp P) : Prop := same f f' /\ f_skip f' = f_skip f.
Lemma still_refl f : still f f. Proof. unfold still, same, fixed. intuition. Qed.
Lemma still_trans f g h : still f g -> still g h -> still f h.
Proof. unfold still, same, fixed. intuition congruence. Qed.
Lemma same_refl f : same f f. Proof. apply still_refl. Qed.
Lemma same_trans f g h : same f g -> same g h -> same f h.
Proof. unfold same, fixed. intuition congruence. Qed.

Lemma run_cb_spec k e s : In k cbs ->
  spec (run_cb Env k e) s [] (fun _ s' l => same (s_fp s) (s_fp s') /\ (sets_skip e = false \/ calm Env cbs -> f_skip (s_fp s') = f_skip (s_fp s)) /\ l = []).
Proof.
  intros Hk r s'. unfold run_cb. destruct (e_cb Env k e (s_fp s, s_w s)) as [q [f w]] eqn:E. intros [= <- <-].
  exists []. cbn [s_tr s_fp]. rewrite app_nil_r. split; [reflexivity|]. destruct q as [[]|x]; [|apply prefix_nil].
  split; [reflexivity|]. pose proof (HT _ _ _ _ _ _ Hk E) as H. unfold same, fixed.
  assert (HK : keeps_pred -> f_pred f = f_pred (s_fp s)) by (intros h; exact (h _ _ _ _ _ _ Hk E)).
  intuition (try (now apply (fun h : calm Env cbs => h _ _ _ _ _ _ _ Hk E))).
Qed.
Lemma each_cb e (l : list nat) : incl l cbs -> forall s,
  spec (each (fun k => seqM (emit (Call k e)) (fun _ => run_cb Env k e)) l) s (map (fun k => Call k e) l)
    (fun _ s' t => same (s_fp s) (s_fp s') /\ (sets_skip e = false \/ calm Env cbs -> f_skip (s_fp s') = f_skip (s_fp s)) /\ t = map (fun k => Call k e) l).
Proof.
  induction l as [|k l IH]; intros Hl s.
  - apply spec_ret. split; [apply same_refl|auto].
  - cbn [each map]. eapply spec_conseq; [eapply spec_bind with (E1 := [Call k e]) (E2 := map (fun k => Call k e) l)|reflexivity|].
    + eapply spec_conseq; [eapply spec_bind; [apply spec_emit|]| |].
      * intros a s1 l1 [H1 ->]. eapply spec_conseq; [apply run_cb_spec; apply Hl; now left|reflexivity|].
        intros b s2 l2 (H2 & H3 & ->).
        instantiate (1 := fun _ s2 l => same (s_fp s) (s_fp s2) /\ (sets_skip e = false \/ calm Env cbs -> f_skip (s_fp s2) = f_skip (s_fp s)) /\ l = [Call k e]).
        cbv beta. rewrite <- H1. auto.
      * reflexivity.
      * intros a s' t H. exact H.
    + intros a s1 l1 (H1 & H2 & ->). eapply spec_conseq; [apply IH; intros x Hx; apply Hl; now right|reflexivity|].
      intros b s2 l2 (H3 & H4 & ->).
      instantiate (1 := fun _ s' t => same (s_fp s) (s_fp s') /\ (sets_skip e = false \/ calm Env cbs -> f_skip (s_fp s') = f_skip (s_fp s)) /\ t = map (fun k => Call k e) (k :: l)).
      cbv beta. split; [now apply same_trans with (s_fp s1)|]. split; [|reflexivity]. intros H. now rewrite H4, H2.
    + intros a s' t H. exact H.
Qed.
Lemma call_spec e s :
  spec (call Env cbs e) s (on c e) (fun _ s' t => same (s_fp s) (s_fp s') /\ (sets_skip e = false \/ calm Env cbs -> f_skip (s_fp s') = f_skip (s_fp s)) /\ t = on c e).
Proof. apply each_cb. apply incl_refl. Qed.
Lemma call_still e s : sets_skip e = false -> spec (call Env cbs e) s (on c e) (fun _ s' t => still (s_fp s) (s_fp s') /\ t = on c e).
Proof. intros H. eapply spec_conseq; [apply call_spec|reflexivity|]. intros a s' t (H1 & H2 & ->). unfold still. auto 6. Qed.

(* one muon batch, all muon batches *)
Lemma mu_batch_spec s : f_mu_bs (s_fp s) = c_mu_bs c ->
  spec (mu_batch Env cbs) s (doc_mu c) (fun _ s' t => still (s_fp s) (s_fp s') /\ t = doc_mu c).
Proof.
  intros Hm. unfold mu_batch.
  eapply spec_conseq; [|reflexivity|intros a s' t H; exact H].
  eapply spec_conseq.
  { eapply spec_bind; [apply spec_getf|intros n s0 l0 (-> & -> & ->)]. rewrite Hm.
    eapply spec_bind; [apply spec_act|intros [] s1 l1 (H1 & ->)].
    eapply spec_bind; [apply call_still; reflexivity|intros [] s2 l2 (H2 & ->)].
    eapply spec_bind; [apply spec_act|intros [] s3 l3 (H3 & ->)].
    eapply spec_bind; [apply spec_act|intros [] s4 l4 (H4 & ->)].
    eapply spec_bind; [apply call_still; reflexivity|intros [] s5 l5 (H5 & ->)].
    eapply spec_bind; [apply spec_act|intros [] s6 l6 (H6 & ->)].
    eapply spec_conseq; [apply call_still; reflexivity|reflexivity|intros [] s7 l7 (H7 & ->)].
    instantiate (1 := fun _ s' t => still (s_fp s) (s_fp s') /\ t = doc_mu c). cbv beta. split; [|reflexivity].
    rewrite H6 in H7. rewrite H4, H3 in H5. rewrite H1 in H2. now apply still_trans with (s_fp s5); [apply still_trans with (s_fp s2)|]. }
  - reflexivity.
  - auto.
Qed.
Lemma mu_batches_spec k a : forall s, f_mu_bs (s_fp s) = c_mu_bs c ->
  spec (each (fun _ => mu_batch Env cbs) (seq a k)) s (concat (repeat (doc_mu c) k))
    (fun _ s' t => still (s_fp s) (s_fp s') /\ t = concat (repeat (doc_mu c) k)).
Proof.
  revert a. induction k as [|k IH]; intros a s Hm; cbn [seq each repeat concat].
  - apply spec_ret. split; [apply still_refl|reflexivity].
  - eapply spec_bind; [apply mu_batch_spec; exact Hm|intros [] s1 l1 (H1 & ->)].
    eapply spec_conseq; [apply IH; destruct H1 as [[H1 _] _]; unfold fixed in H1; intuition congruence|reflexivity|].
    intros [] s2 l2 (H2 & ->). split; [now apply still_trans with (s_fp s1)|reflexivity].
Qed.

(* the loss of a volume *)
Definition opt_add (l : option R) (x : option R) : option R :=
  match x with None => l | Some x => match l with None => Some x | Some v => Some (v + x)%R end end.
(* what one volume does to fit_params *)
Definition after_vol (v : vol I P) (f f' : fp P) : Prop :=
  fixed f f' /\ f_mean f' = f_mean f /\ f_skip f' = f_skip f /\ f_loss f' = opt_add (f_loss f) (v_loss v).
Lemma still_after v f g h : after_vol v f g -> still g h -> after_vol v f h.
Proof. unfold after_vol, still, same, fixed. intuition congruence. Qed.
Lemma after_still v f g h : still f g -> after_vol v g h -> after_vol v f h.
Proof. unfold after_vol, still, same, fixed. intuition congruence. Qed.

Lemma add_loss_spec s :
  spec (add_loss Env) s []
    (fun _ s' t => exists x : option R, t = match x with Some l => [Loss l] | None => [] end /\
       (x <> None <-> is_test (f_state (s_fp s)) = false /\ has_loss Env = true /\ f_pred (s_fp s) <> None) /\
       fixed (s_fp s) (s_fp s') /\ f_mean (s_fp s') = f_mean (s_fp s) /\ f_skip (s_fp s') = f_skip (s_fp s) /\
       f_pred (s_fp s') = f_pred (s_fp s) /\ f_loss (s_fp s') = opt_add (f_loss (s_fp s)) x).
Proof.
  unfold add_loss.
  eapply spec_conseq with (E := [] ++ [] ++ []); [|reflexivity|intros a s' t H; exact H].
  eapply spec_bind; [apply spec_getf|intros st0 s0 l0 (-> & -> & ->)].
  eapply spec_bind; [apply spec_getf|intros p0 s0 l0 (-> & -> & ->)].
  assert (Hnone : forall b : bool, b = true \/ f_pred (s_fp s) = None ->
     spec (ret tt) s [] (fun _ s' t => exists x : option R, [] ++ [] ++ t = match x with Some l => [Loss l] | None => [] end /\
       (x <> None <-> b = false /\ f_pred (s_fp s) <> None) /\
       fixed (s_fp s) (s_fp s') /\ f_mean (s_fp s') = f_mean (s_fp s) /\ f_skip (s_fp s') = f_skip (s_fp s) /\
       f_pred (s_fp s') = f_pred (s_fp s) /\ f_loss (s_fp s') = opt_add (f_loss (s_fp s)) x)).
  { intros b Hb. apply spec_ret. exists None. split; [reflexivity|]. split; [split; [congruence|intros [Hb1 Hb2]; destruct Hb; congruence]|].
    unfold fixed. cbn [opt_add]. intuition. }
  assert (Hrun : forall g p, is_test (f_state (s_fp s)) = false -> e_loss Env = Some g -> f_pred (s_fp s) = Some p ->
    spec (seqM (world (g p)) (fun l => seqM (emit (Loss l)) (fun _ =>
       modf (fun f => set_loss (match f_loss f with None => Some l | Some v => Some (v + l)%R end) f)))) s []
     (fun _ s' t => exists x : option R, [] ++ [] ++ t = match x with Some l => [Loss l] | None => [] end /\
       (x <> None <-> is_test (f_state (s_fp s)) = false /\ has_loss Env = true /\ f_pred (s_fp s) <> None) /\
       fixed (s_fp s) (s_fp s') /\ f_mean (s_fp s') = f_mean (s_fp s) /\ f_skip (s_fp s') = f_skip (s_fp s) /\
       f_pred (s_fp s') = f_pred (s_fp s) /\ f_loss (s_fp s') = opt_add (f_loss (s_fp s)) x)).
  { intros g p H1 H2 H3. eapply spec_conseq with (E := [] ++ [] ++ []); [|reflexivity|intros a s' t H; exact H].
    eapply spec_bind; [apply spec_world|intros l s1 l1 (K1 & ->)].
    eapply spec_bind; [apply spec_emit|intros [] s2 l2 (K2 & ->)].
    eapply spec_conseq; [apply spec_modf|reflexivity|intros [] s3 l3 (K3 & ->)]. exists (Some l). split; [reflexivity|].
    rewrite K3, K2, K1. unfold has_loss. rewrite H2, H3. split; [split; [intros _; repeat split; congruence|discriminate]|].
    unfold fixed, set_loss, opt_add. cbn. intuition. }
  destruct (f_state (s_fp s)) as [[| |]|] eqn:Es; cbn [is_test] in *.
  3: { eapply spec_conseq; [apply (Hnone true); now left|reflexivity|]. cbv beta. intros a s' t (x & Hx).
       exists x. intuition congruence. }
  all: unfold has_loss in *; destruct (e_loss Env) as [g|] eqn:Eg; destruct (f_pred (s_fp s)) as [p|] eqn:Ep.
  all: try (apply (Hrun g p); reflexivity).
  all: try (eapply spec_conseq; [apply (Hnone true); now left|reflexivity|]; cbv beta; intros a s' t (x & Hx);
            exists x; intuition congruence).
Qed.

Definition test_of (f : fp P) : bool := is_test (f_state f).
(* one volume *)
Definition agrees (f : fp P) : Prop := f_n_mu f = c_n_mu c /\ f_mu_bs f = c_mu_bs c.
Lemma agrees_fixed f f' : fixed f f' -> agrees f -> agrees f'.
Proof. unfold fixed, agrees. intuition congruence. Qed.

Definition doc_vol_tail (v : vol I P) : items :=
  [NewInferrer] ++ concat (repeat (doc_mu c) (c_n_mu c / c_mu_bs c))
  ++ on c X0PredBegin ++ [Predicted (v_pred v)] ++ on c X0PredEnd ++ match v_loss v with Some l => [Loss l] | None => [] end.
Lemma scan_volume_spec x s : agrees (s_fp s) ->
  spec (scan_volume Env cbs) s
    ([NewInferrer] ++ concat (repeat (doc_mu c) (c_n_mu c / c_mu_bs c)) ++ on c X0PredBegin ++ [Predicted None] ++ on c X0PredEnd)
    (fun _ s' t => exists v, v_item v = x /\ loss_iff (negb (test_of (s_fp s)) && has_loss Env) v /\
        t = doc_vol_tail v /\ after_vol v (s_fp s) (s_fp s') /\ (keeps_pred -> f_pred (s_fp s') = v_pred v)).
Proof.
  intros [Hn Hm]. unfold scan_volume.
  eapply spec_conseq.
  { eapply spec_bind; [apply spec_modf|intros [] s1 l1 (H1 & ->)].
    eapply spec_bind; [apply spec_getf|intros n s0 l0 (-> & -> & ->)].
    eapply spec_bind; [apply spec_getf|intros b s0 l0 (-> & -> & ->)].
    replace (f_n_mu (s_fp s1)) with (c_n_mu c) by (rewrite H1; cbn; auto).
    replace (f_mu_bs (s_fp s1)) with (c_mu_bs c) by (rewrite H1; cbn; auto).
    eapply spec_bind with (E1 := []) (Q1 := fun k s' l => k = (c_n_mu c / c_mu_bs c)%nat /\ s' = s1 /\ l = []).
    { unfold quotient. destruct (Nat.eqb (c_mu_bs c) 0); [apply spec_raise|apply spec_ret; auto]. }
    intros k s0 l0 (-> & -> & ->).
    eapply spec_bind; [apply spec_act|intros [] s2 l2 (H2 & ->)].
    eapply spec_bind; [apply mu_batches_spec; rewrite H2, H1; cbn; exact Hm|intros [] s3 l3 (H3 & ->)].
    eapply spec_bind; [apply call_still; reflexivity|intros [] s4 l4 (H4 & ->)].
    eapply spec_bind; [apply spec_world|intros p s5 l5 (H5 & ->)].
    eapply spec_bind; [apply spec_modf|intros [] s6 l6 (H6 & ->)].
    eapply spec_bind with (E1 := [Predicted None]); [eapply spec_conseq; [apply spec_emit|reflexivity|intros a s' t H; exact H]|intros [] s7 l7 (H7 & ->)].
    eapply spec_bind; [apply call_still; reflexivity|intros [] s8 l8 (H8 & ->)].
    eapply spec_conseq; [apply add_loss_spec|reflexivity|intros [] s9 l9 (y & -> & Hy & H9)].
    instantiate (1 := fun _ s' t => exists v, v_item v = x /\ loss_iff (negb (test_of (s_fp s)) && has_loss Env) v /\
        t = doc_vol_tail v /\ after_vol v (s_fp s) (s_fp s') /\ (keeps_pred -> f_pred (s_fp s') = v_pred v)). cbv beta.
    assert (H68 : still (set_pred p (s_fp s4)) (s_fp s8)) by (rewrite <- H5, <- H6, <- H7; exact H8).
    assert (H14 : still (set_pred None (s_fp s)) (s_fp s4)).
    { apply still_trans with (s_fp s3); [|exact H4]. rewrite <- H1, <- H2. exact H3. }
    exists (Vol x p y). split; [reflexivity|]. split.
    - unfold loss_iff, test_of. cbn [v_loss v_pred]. rewrite Hy.
      destruct H68 as [[[F1 _] [_ [_ [F2 _]]]] _]. destruct H14 as [[[F3 _] _] _]. cbn in F1, F2, F3. rewrite F1, F2, F3.
      rewrite andb_true_iff, negb_true_iff. tauto.
    - split; [reflexivity|]. unfold after_vol, still, same, fixed in *. cbn in *. destruct H9 as (G1 & G2 & G3 & G4 & G5). split; [intuition congruence|]. rewrite G4. destruct H68 as [[_ [_ [_ [_ H68]]]] _]. exact H68. }
  - cbn [app]. now rewrite app_nil_r.
  - auto.
Qed.
End P.
