(* C111: numbers of muons. *)
From Coq Require Import List Lia.
From Verif Require Import Base.RUtil Model.Fit Spec.FitSpec Spec.MuonCountSpec Proofs.FitP.
Import ListNotations.
Open Scope list_scope.

Section Total.
Context {I P : Type} (c : cfg).
Notation items := (list (item I P)).
Let K := (c_n_mu c / c_mu_bs c * c_mu_bs c)%nat.
Lemma muons_app (l m : items) : muons (l ++ m) = (muons l + muons m)%nat.
Proof. unfold muons. rewrite map_app, list_sum_app. reflexivity. Qed.
Lemma loaded_app (l m : items) : count is_loaded (l ++ m) = (count is_loaded l + count is_loaded m)%nat.
Proof. unfold count. rewrite filter_app, app_length. reflexivity. Qed.
(* in the whole and never more at any moment *)
Definition fair (l : items) : Prop := muons l = (count is_loaded l * K)%nat /\ forall p, prefix p l -> (muons p <= count is_loaded p * K)%nat.
Lemma prefix_split {A} (p a b : list A) : prefix p (a ++ b) -> prefix p a \/ exists q, p = a ++ q /\ prefix q b.
Proof.
  revert a. induction p as [|x p IH]; intros a H; [left; apply prefix_nil|]. destruct a as [|y a]; [right; exists (x :: p); split; [reflexivity|exact H]|].
  destruct H as [r H]. cbn in H. injection H as -> H. destruct (IH a) as [[s Hs]|(q & -> & Hq)]; [exists r; exact H|left; exists s; cbn; f_equal; exact Hs|right; exists q; split; [reflexivity|exact Hq]].
Qed.
Lemma fair_app l m : fair l -> fair m -> fair (l ++ m).
Proof.
  intros [Q B] [Q' B']. split; [rewrite muons_app, loaded_app; lia|]. intros p H. apply prefix_split in H as [H|(q & -> & H)]; [apply B, H|]. rewrite muons_app, loaded_app. specialize (B' q H). lia.
Qed.
Lemma fair_nil : fair []. Proof. split; [reflexivity|]. intros p [r E]. destruct p; [cbn; lia|discriminate]. Qed.
Lemma fair_flat {A} (f : A -> items) l : (forall a, fair (f a)) -> fair (flat_map f l).
Proof. intro H. induction l; [apply fair_nil|]. cbn. apply fair_app; auto. Qed.
Lemma muons_none (l : items) : (forall i, In i l -> match i with Generated _ => False | _ => True end) -> muons l = 0%nat.
Proof. intro H. induction l as [|i l IH]; [reflexivity|]. change (i :: l) with ([i] ++ l). rewrite muons_app, IH by (intros; apply H; right; assumption). specialize (H i (or_introl eq_refl)). destruct i; try reflexivity; contradiction. Qed.
Lemma fair_none (l : items) : (forall i, In i l -> match i with Generated _ | Loaded _ => False | _ => True end) -> fair l.
Proof.
  intro H. assert (N : muons l = 0%nat) by (apply muons_none; intros i Hi; specialize (H i Hi); destruct i; auto).
  assert (N' : count is_loaded l = 0%nat). { unfold count. clear N. induction l as [|i l IH]; [reflexivity|]. cbn. pose proof (H i (or_introl eq_refl)). destruct i; try contradiction; cbn; apply IH; intros; apply H; right; assumption. }
  split; [rewrite N, N'; reflexivity|]. intros p [r E]. rewrite E, muons_app in N. lia.
Qed.
Lemma fair_on e : fair (on c e).
Proof. apply fair_none. intros i Hi. apply in_map_iff in Hi as (k & <- & _). exact Logic.I. Qed.
Lemma muons_on e : muons (on c e : items) = 0%nat.
Proof. apply muons_none. intros i Hi. apply in_map_iff in Hi as (k & <- & _). exact Logic.I. Qed.
Lemma loaded_on e : count is_loaded (on c e : items) = 0%nat.
Proof. unfold count, on. induction (c_cbs c); [reflexivity|exact IHl]. Qed.
Lemma muons_mu : muons (doc_mu c : items) = c_mu_bs c /\ count is_loaded (doc_mu c : items) = 0%nat.
Proof. unfold doc_mu. rewrite !muons_app, !loaded_app, !muons_on, !loaded_on. cbn. lia. Qed.
Lemma muons_batches k : muons (concat (repeat (doc_mu c : items) k)) = (k * c_mu_bs c)%nat /\ count is_loaded (concat (repeat (doc_mu c : items) k)) = 0%nat.
Proof. destruct muons_mu as [M L]. induction k as [|k [IH1 IH2]]; [split; reflexivity|]. cbn [repeat concat]. rewrite muons_app, loaded_app, M, L, IH1, IH2. lia. Qed.
Lemma fair_vol v : fair (doc_vol c v).
Proof.
  unfold doc_vol. set (rest := on c VolumeBegin ++ _).
  assert (R : muons rest = K /\ count is_loaded rest = 0%nat).
  { unfold rest. destruct (muons_batches (c_n_mu c / c_mu_bs c)) as [M L]. rewrite !muons_app, !loaded_app, M, L, !muons_on, !loaded_on. destruct (v_loss v); cbn; unfold K; lia. }
  destruct R as [R1 R2]. split; [rewrite muons_app, loaded_app, R1, R2; cbn; lia|]. intros p [r E]. destruct p as [|i p]; [cbn; lia|]. cbn in E. injection E as <- E.
  assert (muons p <= K)%nat by (rewrite <- R1, E, muons_app; lia). change (muons (Loaded (v_item v) :: p)) with (muons p). unfold count. cbn [filter is_loaded length]. lia.
Qed.
Lemma fair_end train skip vs : fair (doc_end c train skip vs).
Proof.
  unfold doc_end, doc_update. repeat apply fair_app; try apply fair_on; try (apply fair_none; intros i [<-|[]]; exact Logic.I).
  destruct train; [|apply fair_nil]. repeat apply fair_app; try apply fair_on; try (apply fair_none; intros i [<-|[]]; exact Logic.I);
  destruct skip, (mean_loss c vs); try apply fair_nil; apply fair_none; intros i [<-|[]]; exact Logic.I.
Qed.
Lemma fair_scan train skip s : fair (doc_scan c train skip s).
Proof.
  unfold doc_scan. apply fair_app.
  - apply fair_flat. intro vs. unfold doc_batch. apply fair_app; [apply fair_on|]. apply fair_app; [apply fair_flat, fair_vol|apply fair_end].
  - destruct (sc_rest s) eqn:E; [apply fair_nil|]. apply fair_app; [apply fair_on|]. apply fair_flat, fair_vol.
Qed.
Lemma fair_run train skip s : fair (doc_run c train skip s).
Proof. unfold doc_run. apply fair_app; [apply fair_on|]. apply fair_app; [apply fair_scan|apply fair_on]. Qed.
Lemma fair_fit xs : fair (doc_fit c xs).
Proof.
  unfold doc_fit. apply fair_app; [apply fair_on|]. apply fair_app; [apply fair_on|]. apply fair_app; [|apply fair_on]. apply fair_flat. intro x. unfold doc_epoch.
  apply fair_app; [apply fair_none; intros i [<-|[]]; exact Logic.I|]. apply fair_app; [apply fair_run|]. destruct (ep_valid x); [|apply fair_nil].
  apply fair_app; [apply fair_none; intros i [<-|[]]; exact Logic.I|apply fair_run].
Qed.
Lemma fair_predict vs : fair (doc_predict c vs).
Proof.
  unfold doc_predict. apply fair_app; [apply fair_on|]. apply fair_app; [apply fair_none; intros i [<-|[]]; exact Logic.I|]. apply fair_app; [apply fair_on|]. apply fair_app; [apply fair_flat, fair_vol|apply fair_on].
Qed.
End Total.
Lemma skel_muons {I P} (l : list (item I P)) : muons (skeleton l) = muons l /\ count is_loaded (skeleton l) = count is_loaded l.
Proof.
  induction l as [|i l [IH1 IH2]]; [split; reflexivity|]. change (i :: l) with ([i] ++ l). rewrite skel_app, !muons_app, !loaded_app, IH1, IH2. destruct i; split; reflexivity.
Qed.

(* no batch of muons *)
Section Nothing.
Context {W I P : Type} (E : env W I P) (cbs : list nat) (unused : W -> Prop) (n b : nat).
Hypotheses (HT : tame E cbs) (HH : honest E cbs unused) (Hb : (0 < b)%nat) (Hn : (n < b)%nat).
Notation st := (st W I P). Notation M := (M W I P).
Definition J (s : st) : Prop := f_n_mu (s_fp s) = n /\ f_mu_bs (s_fp s) = b /\ f_loss (s_fp s) = None /\ f_mean (s_fp s) = None.
(* Q: what else holds before; on success also after, with what the result says *)
Definition safe {A} (m : M A) (Q : st -> Prop) (R : A -> st -> Prop) : Prop :=
  forall s r s', J s -> Q s -> predicts_nothing (s_tr s) -> m s = (r, s') -> predicts_nothing (s_tr s') /\ forall a, r = Ok a -> J s' /\ R a s'.
Definition any {A} : A -> st -> Prop := fun _ _ => True.
Lemma safe_seq {A B} (m : M A) (f : A -> M B) Q R S : safe m Q R -> (forall a, safe (f a) (R a) S) -> safe (seqM m f) Q S.
Proof.
  intros Hm Hf s r s' HJ HQ HN E'. unfold seqM in E'. destruct (m s) as [[a|e] s1] eqn:E1; destruct (Hm _ _ _ HJ HQ HN E1) as [N1 R1].
  - destruct (R1 a eq_refl) as [J1 Q1]. exact (Hf a _ _ _ J1 Q1 N1 E').
  - injection E' as <- <-. split; [exact N1|discriminate].
Qed.
Lemma safe_weak {A} (m : M A) (Q Q' : st -> Prop) (R R' : A -> st -> Prop) : safe m Q R -> (forall s, Q' s -> Q s) -> (forall a s, R a s -> R' a s) -> safe m Q' R'.
Proof. intros H H1 H2 s r s' HJ HQ HN E'. destruct (H _ _ _ HJ (H1 _ HQ) HN E') as [N K]. split; [exact N|]. intros a Ha. destruct (K a Ha). auto. Qed.
Lemma safe_ret {A} (a : A) Q : safe (ret a) Q (fun a' s => a' = a /\ Q s).
Proof. intros s r s' HJ HQ HN [= <- <-]. split; [exact HN|]. intros a' [= <-]. auto. Qed.
Lemma safe_raise {A} e Q (R : A -> st -> Prop) : safe (raise e) Q R.
Proof. intros s r s' HJ HQ HN [= <- <-]. split; [exact HN|discriminate]. Qed.
Lemma nothing_app (l m : list (item I P)) : predicts_nothing l -> predicts_nothing m -> predicts_nothing (l ++ m).
Proof. intros H H' i Hi. apply in_app_iff in Hi as [Hi|Hi]; [exact (H i Hi)|exact (H' i Hi)]. Qed.
Lemma safe_emit i (Q : st -> Prop) : predicts_nothing [i] -> (forall s, Q s -> Q (St (s_fp s) (s_w s) (s_tr s ++ [i]))) -> safe (emit i) Q (fun _ => Q).
Proof. intros Hi HQ' s r s' HJ HQ HN [= <- <-]. split; [apply nothing_app; assumption|]. intros _ _. split; [exact HJ|apply HQ', HQ]. Qed.
Lemma safe_getf {A} (g : fp P -> A) Q : safe (getf g) Q (fun a s => a = g (s_fp s) /\ Q s).
Proof. intros s r s' HJ HQ HN [= <- <-]. split; [exact HN|]. intros a [= <-]. auto. Qed.
Lemma safe_modf g (Q : st -> Prop) (R : unit -> st -> Prop) : (forall s, J s -> Q s -> J (St (g (s_fp s)) (s_w s) (s_tr s)) /\ R tt (St (g (s_fp s)) (s_w s) (s_tr s))) -> safe (modf g) Q R.
Proof. intros H s r s' HJ HQ HN [= <- <-]. split; [exact HN|]. intros [] _. apply H; assumption. Qed.
Lemma safe_world {A} (g : W -> res A * W) (Q : st -> Prop) (R : A -> st -> Prop) : (forall s a w, Q s -> g (s_w s) = (Ok a, w) -> R a (St (s_fp s) w (s_tr s))) -> safe (world g) Q R.
Proof. intros H s r s' HJ HQ HN E'. unfold world in E'. destruct (g (s_w s)) as [r0 w] eqn:G. injection E' as <- <-. split; [exact HN|]. intros a ->. split; [exact HJ|apply (H _ _ _ HQ G)]. Qed.
Lemma safe_each {A} (f : A -> M unit) l Q : (forall a, In a l -> safe (f a) Q (fun _ => Q)) -> safe (each f l) Q (fun _ => Q).
Proof.
  induction l as [|a l IH]; intro H; [apply (safe_weak _ _ _ _ _ (safe_ret tt Q)); [auto|intros ? ? [_ K]; exact K]|]. cbn. eapply safe_seq; [apply H; left; reflexivity|]. intro. apply IH. intros; apply H; right; assumption.
Qed.
(* what callbacks keep: the prediction being absent, and the inferrer being unused *)
Definition noPred (s : st) : Prop := f_pred (s_fp s) = None.
Definition fresh (s : st) : Prop := unused (s_w s).
Lemma safe_call e (Q : st -> Prop) : (forall k s f w, In k cbs -> Q s -> e_cb E k e (s_fp s, s_w s) = (Ok tt, (f, w)) -> Q (St f w (s_tr s))) ->
  (forall s k, Q s -> Q (St (s_fp s) (s_w s) (s_tr s ++ [Call k e]))) -> safe (call E cbs e) Q (fun _ => Q).
Proof.
  intros HQ HE. unfold call. apply safe_each. intros k Hk. eapply safe_seq; [apply (safe_emit (Call k e) Q); [intros i [<-|[]]; exact Logic.I|intros; apply HE; assumption]|].
  intros _ s r s' HJ HQs HN E'. unfold run_cb in E'. destruct (e_cb E k e (s_fp s, s_w s)) as [r0 [f w]] eqn:C. injection E' as <- <-. split; [exact HN|]. intros [] ->.
  destruct (HT _ _ _ _ _ _ Hk C) as (T1 & T2 & T3 & T4 & T5 & T6 & T7 & T8 & _). destruct HJ as (J1 & J2 & J3 & J4). split; [unfold J; cbn; rewrite T3, T4, T7, T8; auto|]. apply (HQ k s f w Hk HQs C).
Qed.
Lemma call_any e Q : safe (call E cbs e) Q any.
Proof. apply (safe_weak _ (fun _ => True) _ (fun _ _ => True)); [apply (safe_call e (fun _ => True)); auto|auto|intros; exact Logic.I]. Qed.
Lemma call_pred e : safe (call E cbs e) noPred (fun _ => noPred).
Proof. apply safe_call; [|auto]. intros k s f w Hk Q C. destruct (HT _ _ _ _ _ _ Hk C) as (_ & _ & _ & _ & T5 & _). apply T5. exact Q. Qed.
Lemma call_fresh e : safe (call E cbs e) fresh (fun _ => fresh).
Proof. apply safe_call; [|auto]. intros k s f w Hk Q C. exact (proj1 (proj2 HH) _ _ _ _ _ _ Hk Q C). Qed.
Lemma emit_any i (Q : st -> Prop) : predicts_nothing [i] -> safe (emit i) Q any.
Proof. intros Hi s r s' HJ HQ HN [= <- <-]. split; [apply nothing_app; assumption|]. intros a _. split; [exact HJ|exact Logic.I]. Qed.
Lemma act_any i g Q : predicts_nothing [i] -> safe (act i g) Q any.
Proof. intro Hi. unfold act. eapply safe_seq; [apply emit_any, Hi|]. intro a. apply (safe_world _ (any a) any). intros; exact Logic.I. Qed.
Lemma act_inferrer Q : safe (act NewInferrer (e_inferrer E)) Q (fun _ => fresh).
Proof.
  unfold act. eapply safe_seq; [apply emit_any; intros i [<-|[]]; exact Logic.I|].
  intro a. apply safe_world. intros s [] w _ G. exact (proj1 HH _ _ G).
Qed.
Ltac one := intros ? [<-|[]]; exact Logic.I.
Lemma scan_safe Q : safe (scan_volume E cbs) Q any.
Proof.
  unfold scan_volume. eapply safe_seq; [apply (safe_modf _ _ (fun _ _ => True)); intros s HJ _; split; [exact HJ|exact Logic.I]|]. intro.
  eapply safe_seq; [apply (safe_getf f_n_mu)|]. intros n'. eapply safe_seq; [apply (safe_getf f_mu_bs)|]. intros b'.
  intros s r s' HJ HQ HN. assert (n' = n /\ b' = b) as [-> ->]. { destruct HJ as (J1 & J2 & _), HQ as (-> & -> & _). auto. }
  revert s r s' HJ HQ HN. change (safe (k <~ quotient n b ;; _ <~ act NewInferrer (e_inferrer E) ;; _ <~ each (fun _ => mu_batch E cbs) (seq 0 k) ;; _ <~ call E cbs X0PredBegin ;;
    p <~ world (e_predict E) ;; _ <~ modf (set_pred p) ;; _ <~ emit (Predicted p) ;; _ <~ call E cbs X0PredEnd ;; add_loss E) (fun s => b = f_mu_bs (s_fp s) /\ n = f_n_mu (s_fp s) /\ True) any).
  eapply (safe_seq _ _ _ (fun k _ => k = 0%nat)).
  { unfold quotient. destruct (Nat.eqb_spec b 0) as [Z|Z]; [apply safe_raise|]. intros s r s' HJ HQ HN [= <- <-]. split; [exact HN|]. intros q0 [= <-]. split; [exact HJ|apply Nat.div_small, Hn]. }
  intros k s r s' HJ -> HN. revert s r s' HJ HN. enough (G : safe (_ <~ act NewInferrer (e_inferrer E) ;; _ <~ each (fun _ => mu_batch E cbs) (seq 0 0) ;; _ <~ call E cbs X0PredBegin ;;
    p <~ world (e_predict E) ;; _ <~ modf (set_pred p) ;; _ <~ emit (Predicted p) ;; _ <~ call E cbs X0PredEnd ;; add_loss E) (fun _ => True) any) by (intros s r s' HJ HN; exact (G s r s' HJ Logic.I HN)).
  eapply safe_seq; [apply act_inferrer|]. intro. cbn [seq each]. eapply safe_seq; [eapply safe_weak; [apply (safe_ret tt fresh)|auto|intros ? ? [_ K]; exact K]|]. intro.
  eapply safe_seq; [apply call_fresh|]. intro. eapply (safe_seq _ _ _ (fun p _ => p = None)); [apply safe_world; intros s q1 w F G; exact (proj2 (proj2 HH) _ _ _ F G)|].
  intros p s r s' HJ -> HN. revert s r s' HJ HN. enough (G : safe (_ <~ modf (set_pred None) ;; _ <~ emit (Predicted None) ;; _ <~ call E cbs X0PredEnd ;; add_loss E) (fun _ => True) any) by (intros s r s' HJ HN; exact (G s r s' HJ Logic.I HN)).
  eapply safe_seq; [apply (safe_modf _ _ (fun _ => noPred)); intros s HJ _; split; [exact HJ|reflexivity]|]. intro.
  eapply safe_seq; [apply (safe_emit _ noPred); [intros i [<-|[]]; reflexivity|auto]|]. intro. eapply safe_seq; [apply call_pred|]. intro.
  unfold add_loss. eapply safe_seq; [apply (safe_getf f_state)|]. intros m. eapply (safe_seq _ _ _ (fun p _ => p = None)).
  { eapply safe_weak; [apply (safe_getf f_pred)|intros s K; exact K|]. intros q0 s (-> & _ & K). exact K. }
  intros p s r s' HJ -> HN E'. assert (E2 : (Ok tt, s) = (r, s')) by (destruct m as [[]|], (e_loss E); exact E'). injection E2 as <- <-. split; [exact HN|]. intros q0 _. split; [exact HJ|exact Logic.I].
Qed.
Lemma safe_ret_any {A} (a : A) Q : safe (ret a) Q any.
Proof. eapply safe_weak; [apply (safe_ret a Q)|auto|intros; exact Logic.I]. Qed.
Lemma getf_any {A} (g : fp P -> A) Q : safe (getf g) Q any.
Proof. eapply safe_weak; [apply (safe_getf g Q)|auto|intros; exact Logic.I]. Qed.
Lemma need_any {A} (o : option A) e Q : safe (need o e) Q any.
Proof. destruct o; [apply safe_ret_any|apply safe_raise]. Qed.
Lemma multiple_any i k Q : safe (is_multiple i k) Q any.
Proof. unfold is_multiple. destruct (Nat.eqb k 0); [apply safe_raise|apply safe_ret_any]. Qed.
Lemma mean_none : safe (getf f_mean) (fun _ => True) (fun a _ => a = None).
Proof. intros s r s' HJ HQ HN [= <- <-]. split; [exact HN|]. intros q0 [= <-]. split; [exact HJ|apply HJ]. Qed.
Lemma weaken_any {A B} (a : A) (m : M B) R : safe m (fun _ => True) R -> safe m (any a) R.
Proof. intro H. exact H. Qed.
Lemma update_safe Q : safe (update E cbs) Q any.
Proof.
  unfold update. eapply safe_seq; [apply act_any; one|]. intro. eapply safe_seq; [apply call_any|]. intro. eapply (safe_seq _ _ _ (fun a _ => a = None)); [apply mean_none|].
  intros m s r s' HJ -> HN. revert s r s' HJ HN.
  enough (G : safe (_ <~ ret tt ;; _ <~ call E cbs BackwardsEnd ;; m <~ getf f_mean ;; skip <~ getf f_skip ;; _ <~ (match m with Some _ => if skip : bool then ret tt else act Step (e_step E) | None => ret tt end) ;;
    _ <~ call E cbs StepEnd ;; act Conform (e_conform E)) (fun _ => True) any) by (intros s r s' HJ HN; exact (G s r s' HJ Logic.I HN)).
  eapply safe_seq; [apply safe_ret_any|]. intro. eapply safe_seq; [apply call_any|]. intro. eapply (safe_seq _ _ _ (fun a _ => a = None)); [apply mean_none|].
  intros m s r s' HJ -> HN. revert s r s' HJ HN.
  enough (G : safe (skip <~ getf f_skip ;; _ <~ ret tt ;; _ <~ call E cbs StepEnd ;; act Conform (e_conform E)) (fun _ => True) any) by (intros s r s' HJ HN; exact (G s r s' HJ Logic.I HN)).
  eapply safe_seq; [apply getf_any|]. intro. eapply safe_seq; [apply safe_ret_any|]. intro. eapply safe_seq; [apply call_any|]. intro. apply act_any. one.
Qed.
Lemma begin_safe i Q : safe (batch_begin E cbs i) Q any.
Proof.
  unfold batch_begin. eapply safe_seq; [apply (getf_any f_state)|]. intro m. destruct (is_test m); [apply safe_ret_any|]. eapply safe_seq; [apply getf_any|]. intro o. eapply safe_seq; [apply need_any|]. intro k.
  eapply safe_seq; [apply multiple_any|]. intros [|]; [|apply safe_ret_any]. eapply safe_seq; [|intro; apply call_any].
  apply (safe_modf _ _ any). intros s (J1 & J2 & J3 & J4) _. split; [unfold J; cbn; auto|exact Logic.I].
Qed.
Lemma end_safe d i Q : safe (batch_end E cbs d i) Q any.
Proof.
  unfold batch_end. eapply safe_seq; [apply (getf_any f_state)|]. intro m. destruct (is_test m); [apply safe_ret_any|]. eapply safe_seq; [apply getf_any|]. intro o. eapply safe_seq; [apply need_any|]. intro k.
  eapply safe_seq; [apply multiple_any|]. intros [|]; [|apply safe_ret_any].
  eapply (safe_seq _ _ _ (fun a _ => a = None)). { intros s r s' HJ HQ HN [= <- <-]. split; [exact HN|]. intros q0 [= <-]. split; [exact HJ|apply HJ]. }
  intros l s r s' HJ -> HN. revert s r s' HJ HN.
  enough (G : safe (_ <~ modf (set_mean None) ;; _ <~ emit (Mean None) ;; _ <~ call E cbs VolumeBatchEnd ;; s <~ getf f_state ;; _ <~ (if is_train s then update E cbs else ret tt) ;;
      b <~ getf f_passive_bs ;; b <~ need b TypeErr ;; ret (Nat.ltb (e_len E d - (i + 1)) b)) (fun _ => True) any) by (intros s r s' HJ HN; exact (G s r s' HJ Logic.I HN)).
  eapply safe_seq; [apply (safe_modf _ _ any); intros s (J1 & J2 & J3 & J4) _; split; [unfold J; cbn; auto|exact Logic.I]|]. intro.
  eapply safe_seq; [apply emit_any; intros j [<-|[]]; reflexivity|]. intro.
  eapply safe_seq; [apply call_any|]. intro. eapply safe_seq; [apply getf_any|]. intro m'. eapply safe_seq; [destruct (is_train m'); [apply update_safe|apply safe_ret_any]|]. intro.
  eapply safe_seq; [apply getf_any|]. intro o'. eapply safe_seq; [apply need_any|]. intro. apply safe_ret_any.
Qed.
Lemma from_safe d todo : forall i Q, safe (scan_from E cbs d todo i) Q any.
Proof.
  induction todo as [|todo IH]; intros i Q; [apply safe_ret_any|]. cbn [scan_from]. eapply (safe_seq _ _ _ any); [apply safe_world; intros; exact Logic.I|]. intro x.
  eapply safe_seq; [apply (safe_modf _ _ any); intros s HJ _; split; [exact HJ|exact Logic.I]|]. intro. eapply safe_seq; [apply begin_safe|]. intro. eapply safe_seq; [apply act_any; one|]. intro.
  eapply safe_seq; [apply call_any|]. intro. eapply safe_seq; [apply scan_safe|]. intro. eapply safe_seq; [apply call_any|]. intro. eapply safe_seq; [apply end_safe|]. intros [|]; [apply safe_ret_any|apply IH].
Qed.
Lemma run_safe d Q : safe (run_epoch E cbs d) Q any.
Proof. unfold run_epoch. eapply safe_seq; [apply call_any|]. intro. eapply safe_seq; [apply from_safe|]. intro. apply call_any. Qed.
Lemma modf_keep g Q : (forall f, f_n_mu (g f) = f_n_mu f /\ f_mu_bs (g f) = f_mu_bs f /\ f_loss (g f) = f_loss f /\ f_mean (g f) = f_mean f) -> safe (modf g) Q any.
Proof. intro H. apply (safe_modf _ _ any). intros s (J1 & J2 & J3 & J4) _. destruct (H (s_fp s)) as (H1 & H2 & H3 & H4). split; [unfold J; cbn; rewrite H1, H2, H3, H4; auto|exact Logic.I]. Qed.
Lemma epoch_safe v Q : safe (fit_epoch E cbs v) Q any.
Proof.
  unfold fit_epoch. eapply safe_seq; [apply modf_keep; auto|]. intro. eapply safe_seq; [apply act_any; one|]. intro. eapply safe_seq; [apply modf_keep; auto|]. intro. eapply safe_seq; [apply run_safe|]. intro.
  destruct v; [|apply safe_ret_any]. eapply safe_seq; [apply act_any; one|]. intro. eapply safe_seq; [apply modf_keep; auto|]. intro. apply run_safe.
Qed.
Lemma epochs_safe v k : forall Q, safe (fit_epochs E cbs v k) Q any.
Proof. induction k as [|k IH]; intro Q; [apply safe_ret_any|]. cbn [fit_epochs]. eapply safe_seq; [apply epoch_safe|]. intro. eapply safe_seq; [apply getf_any|]. intros [|]; [apply safe_ret_any|apply IH]. Qed.
Lemma body_safe v Q : safe (fit_body E cbs v) Q any.
Proof.
  unfold fit_body. eapply safe_seq; [apply call_any|]. intro. eapply safe_seq; [apply call_any|]. intro. eapply safe_seq; [apply getf_any|]. intro o. eapply safe_seq; [apply need_any|]. intro k.
  eapply safe_seq; [apply epochs_safe|]. intro. apply call_any.
Qed.
Lemma pred_safe Q : safe (predict_body E cbs) Q any.
Proof.
  unfold predict_body. eapply safe_seq; [apply call_any|]. intro. eapply safe_seq; [apply act_any; one|]. intro. eapply safe_seq; [apply call_any|]. intro. eapply safe_seq; [apply from_safe|]. intro. apply call_any.
Qed.
End Nothing.
