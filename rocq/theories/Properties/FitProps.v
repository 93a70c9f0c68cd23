(* Properties C41-C45, C54 and C75: the fit and predict loops. *)
From Coq Require Import Lia Lra.
From Verif Require Import Base.RUtil Model.Fit Model.PredCb Spec.FitSpec Spec.PredSpec Proofs.FitP Proofs.FitScan Proofs.FitAll Proofs.FitCount Proofs.PredP.
Open Scope list_scope.

(* --- an example world: a counter; one callback that stops after three epochs or raises at a chosen moment --- *)
Definition nop {A} (a : A) (w : nat) : res A * nat := (Ok a, w).
Definition tick {A} (a : A) (w : nat) : res A * nat := (Ok a, S w).
Definition quiet_cb (k : nat) (e : event) (x : fp nat * nat) : res unit * (fp nat * nat) := (Ok tt, x).
Definition angry_cb (bad : event) (k : nat) (e : event) (x : fp nat * nat) : res unit * (fp nat * nat) :=
  match e, bad with StepEnd, StepEnd | X0PredEnd, X0PredEnd | SetWrapper, SetWrapper => (Err (UserExn 7), x) | _, _ => (Ok tt, x) end.
Definition demo (cb : nat -> event -> fp nat * nat -> res unit * (fp nat * nat)) (n_trn n_val n_tst : nat) (pred : option nat) : env nat nat nat :=
  Fit.Env cb (fun d => match d with TrnData => n_trn | ValData => n_val | TstData => n_tst end)
    (fun _ i => nop i) (fun _ => tick tt) (nop tt) (fun _ => nop tt) (nop tt) (nop tt) (nop tt) (nop pred)
    (Some (fun p => nop (INR p))) (nop tt) (fun _ => nop tt) (tick tt) (nop tt) (nop tt) (nop tt) (nop tt) (fun w => w).
Lemma quiet_tame n1 n2 n3 p cbs : tame (demo quiet_cb n1 n2 n3 p) cbs.
Proof. intros k e f w f' w' _ [= <- <-]. auto 12. Qed.
Lemma quiet_calm n1 n2 n3 p cbs : calm (demo quiet_cb n1 n2 n3 p) cbs.
Proof. intros k e f w r f' w' _ [= <- <- <-]. auto. Qed.
Lemma angry_tame b n1 n2 n3 p cbs : tame (demo (angry_cb b) n1 n2 n3 p) cbs.
Proof. intros k e f w f' w' _. cbn. unfold angry_cb. destruct e, b; intros [= <- <-]; auto 12. Qed.

(* C41. Callbacks that leave the loop's own settings alone: a fit that ends normally does exactly what is documented, in that order,
   for some number of epochs up to the one asked for. *)
Theorem C41_order :
  forall W I P (E : env W I P) n_epochs bs n_mu mu_bs validate cbs a cbs' a' tr,
  tame E cbs -> (0 < bs)%nat ->
  fit E n_epochs bs n_mu mu_bs validate cbs a = (Ok cbs', a', tr) ->
  let c := Cfg cbs bs n_mu mu_bs in
  exists xs, tr = doc_fit c xs /\ (length xs <= n_epochs)%nat /\ ((0 < n_epochs)%nat -> (0 < length xs)%nat) /\
    (calm E cbs -> length xs = n_epochs) /\
    Forall (epoch_shape c validate (e_len E TrnData) (e_len E ValData)) xs /\
    Forall (fun x => Forall (loss_iff (has_loss E)) (epoch_vols x)) xs.
Proof.
  intros W I P E n bs n_mu mu_bs validate cbs a cbs' a' tr HT Hb H c. unfold fit in H.
  destruct (e_mkdir E (w_w a)) as [[[]|e] w]; [|discriminate].
  destruct (fit_body E cbs validate _) as [r s] eqn:EB. destruct r as [[]|e]; [|discriminate]. injection H as <- <- <-.
 
  destruct ((fun h1 h2 h3 => fit_body_spec E c HT Hb validate n _ _ _ h1 h2 h3 EB) (conj (conj eq_refl eq_refl) eq_refl) eq_refl eq_refl) as [_ H2].
  destruct (H2 eq_refl) as (xs & L1 & L2 & L3 & L4 & _ & F1 & F2 & Ht & _). exists xs. split; [exact Ht|]. auto 10.
Qed.
Print Assumptions C41_order.

(* C41. However the fit ends, what happened is the beginning of what is documented: nothing is out of order, and each callback
   gets each event in turn. *)
Theorem C41_order_always :
  forall W I P (E : env W I P) n_epochs bs n_mu mu_bs validate cbs a r a' tr,
  tame E cbs -> (0 < bs)%nat ->
  fit E n_epochs bs n_mu mu_bs validate cbs a = (r, a', tr) ->
  exists e, (e <= n_epochs)%nat /\
    prefix (skeleton tr) (doc_fit (Cfg cbs bs n_mu mu_bs) (repeat (blank_epoch validate bs (e_len E TrnData) (e_len E ValData)) e)).
Proof.
  intros W I P E n bs n_mu mu_bs validate cbs a r a' tr HT Hb H. unfold fit in H.
  destruct (e_mkdir E (w_w a)) as [[[]|e] w].
  - destruct (fit_body E cbs validate _) as [r' s] eqn:EB. injection H as _ _ <-.
    set (c := Cfg cbs bs n_mu mu_bs).
    destruct ((fun h1 h2 h3 => fit_body_spec E c HT Hb validate n _ _ _ h1 h2 h3 EB) (conj (conj eq_refl eq_refl) eq_refl) eq_refl eq_refl) as [H1 _]. exact H1.
  - injection H as _ _ <-. exists 0%nat. split; [lia|apply prefix_nil].
Qed.
Print Assumptions C41_order_always.

(* two epochs of five volumes in batches of two, two muon batches, two callbacks: 1 batch update is 1 step *)
Example C41_case :
  let '(r, a, tr) := fit (demo quiet_cb 5 3 0 (Some 4%nat)) 2 2 10 5 true [0; 1]%nat (Wrapper None 0%nat) in
  r = Ok [0; 1]%nat /\ w_fp a = None /\ count is_step tr = 4%nat /\ count is_loaded tr = 12%nat /\ length (events tr) = 310%nat.
Proof. vm_compute. auto 10. Qed.
Example C41_failing :
  let '(r, a, tr) := fit (demo (angry_cb StepEnd) 5 3 0 (Some 4%nat)) 2 2 10 5 true [0; 1]%nat (Wrapper None 0%nat) in
  r = Err (UserExn 7) /\ w_fp a = None /\ count is_step tr = 1%nat.
Proof. vm_compute. auto. Qed.
Example C41_failing_tame : tame (demo (angry_cb StepEnd) 5 3 0 (Some 4%nat)) [0; 1]%nat.
Proof. apply angry_tame. Qed.

(* C41. With fewer volumes than a batch, a batch is begun and never ended. *)
Theorem C41_matched_refuted :
  exists W I P (E : env W I P) n_epochs bs n_mu mu_bs validate cbs a cbs' a' tr,
  tame E cbs /\ fit E n_epochs bs n_mu mu_bs validate cbs a = (Ok cbs', a', tr) /\
  In (0%nat, VolumeBatchBegin) (events tr) /\ ~ In (0%nat, VolumeBatchEnd) (events tr).
Proof.
  exists nat, nat, nat, (demo quiet_cb 1 0 0 (Some 4%nat)), 1%nat, 2%nat, 5%nat, 5%nat, false, [0%nat], (Wrapper None 0%nat). do 3 eexists.
  split; [apply quiet_tame|]. split; [vm_compute; reflexivity|]. vm_compute. split; [auto 10|]. intuition discriminate.
Qed.
Print Assumptions C41_matched_refuted.

(* C42. However the fit ends, there are at most as many updates as full training batches. *)
Theorem C42_updates_bound :
  forall W I P (E : env W I P) n_epochs bs n_mu mu_bs validate cbs a r a' tr,
  tame E cbs -> (0 < bs)%nat ->
  fit E n_epochs bs n_mu mu_bs validate cbs a = (r, a', tr) ->
  (count is_step tr <= n_epochs * (e_len E TrnData / bs))%nat.
Proof.
  intros W I P E n bs n_mu mu_bs validate cbs a r a' tr HT Hb H.
  assert (Hbal : (count is_step tr <= count is_zero tr)%nat).
  { unfold fit in H. destruct (e_mkdir E (w_w a)) as [[[]|e] w]; [|injection H as _ _ <-; cbn; lia].
    destruct (fit_body E cbs validate _) as [r' s] eqn:EB. injection H as _ _ <-.
    apply (any_pres _ _ (bal_body E cbs validate)) in EB; [unfold bal in EB; lia|unfold bal; cbn; lia]. }
  destruct (C41_order_always _ _ _ _ _ _ _ _ _ _ _ _ _ _ HT Hb H) as (e & He & Hp).
  apply (prefix_count is_zero) in Hp. rewrite skel_zero, fit_zeros in Hp.
  rewrite (list_sum_const _ (e_len E TrnData / bs)%nat) in Hp.
  - rewrite repeat_length in Hp. apply Nat.le_trans with (e * (e_len E TrnData / bs))%nat; [lia|]. now apply Nat.mul_le_mono_r.
  - apply Forall_forall. intros x Hx. apply repeat_spec in Hx. subst x. cbn. now rewrite repeat_length.
Qed.
Print Assumptions C42_updates_bound.

(* C42. After a fit that ends normally: an epoch that is not skipped has one update per full training batch with a loss, a skipped one has none;
   nothing is updated in validation; every full training batch, updated or not, ends by putting the detectors back into their bounds. *)
Theorem C42_updates :
  forall W I P (E : env W I P) n_epochs bs n_mu mu_bs validate cbs a cbs' a' tr,
  tame E cbs -> (0 < bs)%nat ->
  fit E n_epochs bs n_mu mu_bs validate cbs a = (Ok cbs', a', tr) ->
  let c := Cfg cbs bs n_mu mu_bs in
  exists xs, tr = doc_fit c xs /\
    count is_step tr = list_sum (map (fun x => if ep_skip x then 0 else list_sum (map has_mean (sc_batches (ep_train x)))) xs)%nat /\
    count is_conform tr = (length xs * (e_len E TrnData / bs))%nat /\
    count is_loaded tr = (length xs * (scanned (e_len E TrnData) bs + if validate then scanned (e_len E ValData) bs else 0))%nat /\
    Forall (fun x => length (sc_batches (ep_train x)) = (e_len E TrnData / bs)%nat) xs.
Proof.
  intros W I P E n bs n_mu mu_bs validate cbs a cbs' a' tr HT Hb H c.
  destruct (C41_order _ _ _ _ _ _ _ _ _ _ _ _ _ _ HT Hb H) as (xs & Ht & L1 & L2 & L3 & F1 & F2). fold c in Ht, F1. exists xs. split; [exact Ht|].
  rewrite Ht, fit_steps, fit_conforms, fit_loaded. split; [reflexivity|].
  assert (F : Forall (fun x => length (sc_batches (ep_train x)) = (e_len E TrnData / bs)%nat) xs).
  { eapply Forall_impl; [|exact F1]. intros x [[S1 _] _]. exact S1. }
  split; [now apply list_sum_const|]. split; [|exact F]. apply list_sum_const. eapply Forall_impl; [|exact F1].
  intros x [S1 S2]. unfold epoch_vols. rewrite app_length, (shape_vols c _ _ Hb S1). f_equal.
  destruct (ep_valid x); [destruct S2 as [-> S2]; now rewrite (shape_vols c _ _ Hb S2)|now rewrite S2].
Qed.
Print Assumptions C42_updates.

(* C42. With a loss, predictions for all volumes and no callback that stops or skips: exactly one update per full batch. *)
Theorem C42_updates_exact :
  forall W I P (E : env W I P) n_epochs bs n_mu mu_bs validate cbs a cbs' a' tr,
  tame E cbs -> calm E cbs -> (0 < bs)%nat -> has_loss E = true ->
  fit E n_epochs bs n_mu mu_bs validate cbs a = (Ok cbs', a', tr) ->
  (forall p, In (Predicted p) tr -> p <> None) ->
  count is_step tr = (n_epochs * (e_len E TrnData / bs))%nat.
Proof.
  intros W I P E n bs n_mu mu_bs validate cbs a cbs' a' tr HT HC Hb HL H Hp. unfold fit in H.
  destruct (e_mkdir E (w_w a)) as [[[]|e] w]; [|discriminate].
  destruct (fit_body E cbs validate _) as [r s] eqn:EB. destruct r as [[]|e]; [|discriminate]. injection H as <- <- <-.
  set (c := Cfg cbs bs n_mu mu_bs).
  destruct ((fun h1 h2 h3 => fit_body_spec E c HT Hb validate n _ _ _ h1 h2 h3 EB) (conj (conj eq_refl eq_refl) eq_refl) eq_refl eq_refl) as [_ H2].
  destruct (H2 eq_refl) as (xs & L1 & L2 & L3 & L4 & _ & F1 & F2 & Ht & _). specialize (L3 HC eq_refl). specialize (L4 HC). cbn [f_skip] in L4.
  rewrite Ht, fit_steps, <- L3. apply list_sum_const. apply Forall_forall. intros x Hx.
  rewrite Forall_forall in F1, F2, L4. cbn in L4. rewrite (L4 x Hx). destruct (F1 x Hx) as [(S1 & S2 & S3) _]. change bs with (c_bs c). rewrite <- S1.
  rewrite (list_sum_const _ 1); [lia|]. apply Forall_forall. intros vs Hvs. rewrite Forall_forall in S2. apply has_mean_one.
  - rewrite (S2 vs Hvs). exact Hb.
  - apply Forall_forall. intros v Hv.
    assert (Hin : In v (scan_vols (ep_train x))) by (unfold scan_vols; apply in_or_app; left; apply in_concat; now exists vs).
    assert (Hl : loss_iff (has_loss E) v).
    { specialize (F2 x Hx). rewrite Forall_forall in F2. apply F2. unfold epoch_vols. apply in_or_app. now left. }
    apply Hl. split; [exact HL|]. apply Hp. rewrite Ht. now apply in_fit with x.
Qed.
Print Assumptions C42_updates_exact.
Example C42_case :
  let '(r, a, tr) := fit (demo quiet_cb 5 3 0 (Some 4%nat)) 2 2 10 5 true [0; 1]%nat (Wrapper None 0%nat) in
  r = Ok [0; 1]%nat /\ predictions tr = repeat (Some 4%nat) 12 /\ count is_step tr = (2 * (5 / 2))%nat.
Proof. vm_compute. auto. Qed.
Example C42_case_hyps :
  let E := demo quiet_cb 5 3 0 (Some 4%nat) in tame E [0; 1]%nat /\ calm E [0; 1]%nat /\ has_loss E = true.
Proof. split; [apply quiet_tame|]. split; [apply quiet_calm|reflexivity]. Qed.

(* C42. Prediction makes no update, however it ends. *)
Theorem C42_predict_no_update :
  forall W I P (E : env W I P) A (get : W -> A) n_mu mu_bs h cbs a r a' cbs' tr,
  tame E (cbs ++ [h]) -> predict E get n_mu mu_bs h cbs a = (r, a', cbs', tr) -> count is_step tr = 0%nat.
Proof.
  intros W I P E A get n_mu mu_bs h cbs a r a' cbs' tr HT H. unfold predict in H.
  destruct (predict_body E (cbs ++ [h]) _) as [r' s] eqn:EB. injection H as _ _ _ <-.
  set (c := Cfg (cbs ++ [h]) 0 n_mu mu_bs).
  pose proof ((fun h1 h2 h3 => predict_body_spec E c HT _ _ _ h1 h2 h3 EB) (conj eq_refl eq_refl) eq_refl eq_refl) as [Hp _].
  apply (any_pres _ _ (bal_predict E (c_cbs c))) in EB; [|unfold bal; cbn; lia]. unfold bal in EB.
  apply (prefix_count is_zero) in Hp. rewrite skel_zero in Hp. unfold doc_predict in Hp.
  rewrite !count_app, !count_on, count_flat, list_sum_zero in Hp by (try apply nc_zero; intros v; rewrite vol_count; auto; now intros ? ?).
  cbn in Hp. lia.
Qed.
Print Assumptions C42_predict_no_update.

(* C43. The loss of every batch, in order, is the sum of the losses of its own volumes divided by the batch size (None without any loss),
   and what is propagated back are those of the training batches.  A volume has a loss if and only if there is a prediction and a loss function. *)
Theorem C43_batch_loss :
  forall W I P (E : env W I P) n_epochs bs n_mu mu_bs validate cbs a cbs' a' tr,
  tame E cbs -> (0 < bs)%nat ->
  fit E n_epochs bs n_mu mu_bs validate cbs a = (Ok cbs', a', tr) ->
  let c := Cfg cbs bs n_mu mu_bs in
  exists xs, tr = doc_fit c xs /\ Forall (fun x => Forall (loss_iff (has_loss E)) (epoch_vols x)) xs /\
    means tr = flat_map (fun x => map (mean_loss c) (sc_batches (ep_train x) ++ match ep_valid x with Some v => sc_batches v | None => [] end)) xs /\
    backs tr = flat_map (fun x => flat_map (fun vs => match mean_loss c vs with Some l => [l] | None => [] end) (sc_batches (ep_train x))) xs.
Proof.
  intros W I P E n bs n_mu mu_bs validate cbs a cbs' a' tr HT Hb H c.
  destruct (C41_order _ _ _ _ _ _ _ _ _ _ _ _ _ _ HT Hb H) as (xs & Ht & _ & _ & _ & _ & F2). fold c in Ht. exists xs.
  split; [exact Ht|]. split; [exact F2|]. rewrite Ht. split; [apply means_fit|apply backs_fit].
Qed.
Print Assumptions C43_batch_loss.
Example C43_case :
  let '(r, a, tr) := fit (demo quiet_cb 5 3 0 (Some 4%nat)) 1 2 10 5 true [0]%nat (Wrapper None 0%nat) in
  r = Ok [0]%nat /\ means tr = [Some ((INR 4 + INR 4) / INR 2); Some ((INR 4 + INR 4) / INR 2); Some ((INR 4 + INR 4) / INR 2)]%R
  /\ length (backs tr) = 2%nat.
Proof. cbv -[Rplus Rdiv INR]. auto. Qed.
Example C43_no_prediction :
  let '(r, a, tr) := fit (demo quiet_cb 5 3 0 None) 1 2 10 5 true [0]%nat (Wrapper None 0%nat) in
  r = Ok [0]%nat /\ means tr = [None; None; None] /\ backs tr = [] /\ count is_step tr = 0%nat.
Proof. vm_compute. auto. Qed.

(* C44. Whatever callbacks and all the rest do, after a fit whose output folder could be made the wrapper has no fit_params;
   a result is returned only if nothing raised. *)
Theorem C44_fit_clean :
  forall W I P (E : env W I P) n_epochs bs n_mu mu_bs validate cbs a r a' tr w,
  e_mkdir E (w_w a) = (Ok tt, w) ->
  fit E n_epochs bs n_mu mu_bs validate cbs a = (r, a', tr) ->
  w_fp a' = None /\ (forall x, r = Ok x -> x = cbs /\ Forall (succeeds E) tr).
Proof.
  intros W I P E n bs n_mu mu_bs validate cbs a r a' tr w Hm H. unfold fit in H. rewrite Hm in H.
  destruct (fit_body E cbs validate _) as [r' s] eqn:EB. injection H as <- <- <-. split; [reflexivity|].
  intros x Hx. destruct r' as [[]|e]; [|discriminate]. split; [congruence|].
  exact (fine_body E cbs validate _ _ _ EB (Forall_nil _)).
Qed.
Print Assumptions C44_fit_clean.
Theorem C44_predict_clean :
  forall W I P (E : env W I P) A (get : W -> A) n_mu mu_bs h cbs a r a' cbs' tr,
  predict E get n_mu mu_bs h cbs a = (r, a', cbs', tr) ->
  w_fp a' = None /\ cbs' = cbs /\ (forall x, r = Ok x -> x = get (w_w a') /\ Forall (succeeds E) tr).
Proof.
  intros W I P E A get n_mu mu_bs h cbs a r a' cbs' tr H. unfold predict in H.
  destruct (predict_body E (cbs ++ [h]) _) as [r' s] eqn:EB. injection H as <- <- <- <-. split; [reflexivity|]. split; [now rewrite removelast_last|].
  intros x Hx. destruct r' as [[]|e]; [|discriminate]. split; [injection Hx as <-; reflexivity|].
  exact (fine_predict E (cbs ++ [h]) _ _ _ EB (Forall_nil _)).
Qed.
Print Assumptions C44_predict_clean.
Example C44_case :
  let '(r, a, cbs, tr) := predict (demo (angry_cb X0PredEnd) 0 0 3 (Some 4%nat)) (fun w => w) 10 5 9 [0; 1]%nat (Wrapper None 0%nat) in
  r = Err (UserExn 7) /\ w_fp a = None /\ cbs = [0; 1]%nat.
Proof. vm_compute. auto. Qed.
(* C44. Every run starts afresh: neither fit nor predict depends on fit_params that an earlier run left behind, and the first callback that
   is called sees only what this run was asked for. *)
Theorem C44_fresh_start :
  forall W I P (E : env W I P) A (get : W -> A) n_epochs bs n_mu mu_bs validate h c cbs f f' w,
  fit E n_epochs bs n_mu mu_bs validate cbs (Wrapper f w) = fit E n_epochs bs n_mu mu_bs validate cbs (Wrapper f' w)
  /\ predict E get n_mu mu_bs h cbs (Wrapper f w) = predict E get n_mu mu_bs h cbs (Wrapper f' w)
  /\ (forall w1 e s, e_mkdir E w = (Ok tt, w1) ->
        e_cb E c SetWrapper (FP None false false 0 None None None None (Some bs) n_mu mu_bs (Some n_epochs), w1) = (Err e, s) ->
        fit E n_epochs bs n_mu mu_bs validate (c :: cbs) (Wrapper f w) = (Err e, Wrapper None (snd s), [Call c SetWrapper]))
  /\ (forall e s,
        e_cb E c SetWrapper (FP (Some Test) false false 0 None None None None None n_mu mu_bs None, e_no_shuffle E w) = (Err e, s) ->
        predict E get n_mu mu_bs h (c :: cbs) (Wrapper f w) = (Err e, Wrapper None (snd s), c :: cbs, [Call c SetWrapper])).
Proof.
  intros W I P E A get n bs n_mu mu_bs validate h c cbs f f' w. split; [reflexivity|]. split; [reflexivity|]. split.
  - intros w1 e s Hm Hc. unfold fit. cbn [w_w]. rewrite Hm. unfold fit_body, call, each, run_cb, seqM, emit. cbn [s_fp s_w s_tr app].
    rewrite Hc. destruct s. reflexivity.
  - intros e s Hc. unfold predict. cbn [w_w app]. unfold predict_body, call, each, run_cb, seqM, emit. cbn [s_fp s_w s_tr app].
    rewrite Hc. destruct s. cbn [s_w s_tr snd w_w]. change (c :: cbs ++ [h]) with ((c :: cbs) ++ [h]). rewrite removelast_last. reflexivity.
Qed.
Print Assumptions C44_fresh_start.
Example C44_fresh_start_case :
  let '(r, a, cbs, tr) := predict (demo (angry_cb SetWrapper) 0 0 3 (Some 4%nat)) (fun w => w) 10 5 9 [0; 1]%nat (Wrapper None 0%nat) in
  r = Err (UserExn 7) /\ cbs = [0; 1]%nat /\ tr = [Call 0%nat SetWrapper].
Proof. vm_compute. auto. Qed.
(* C44. If the output folder cannot be made, the fit_params stay. *)
Theorem C44_mkdir_refuted :
  exists W I P (E : env W I P) n_epochs bs n_mu mu_bs validate cbs a e a' tr,
  fit E n_epochs bs n_mu mu_bs validate cbs a = (Err e, a', tr) /\ w_fp a = None /\ w_fp a' <> None.
Proof.
  exists nat, nat, nat,
    (Fit.Env quiet_cb (fun _ => 0%nat) (fun _ i => nop i) (fun _ => tick tt) (nop tt) (fun _ => nop tt) (nop tt) (nop tt) (nop tt) (nop None)
      None (nop tt) (fun _ => nop tt) (tick tt) (nop tt) (nop tt) (nop tt) (fun w => (Err (UserExn 1), w)) (fun w => w)),
    1%nat, 1%nat, 1%nat, 1%nat, false, [], (Wrapper None 0%nat), (UserExn 1). do 2 eexists. split; [reflexivity|]. split; [reflexivity|discriminate].
Qed.
Print Assumptions C44_mkdir_refuted.

(* C45. predict with a PredHandler: exactly one pair per volume, in order, the prediction of that volume with its own target, whatever the
   handler held before.  The handler is not one of the other callbacks; loading a volume sets its target, and nothing
   changes it while it is scanned; the other callbacks leave predictions alone. *)
Theorem C45_pairs :
  forall W I P T (E : env W I P) (target : W -> res T) (want : I -> T) n_mu mu_bs h cbs a r a' cbs' tr,
  ~ In h cbs -> tame E cbs ->
  (forall x w w', e_load E x w = (Ok tt, w') -> target w' = Ok (want x)) ->
  keeps target (e_inferrer E) -> (forall n, keeps target (e_generate E n)) -> keeps target (e_cross E) -> keeps target (e_scatter E) ->
  keeps target (e_add E) -> keeps target (e_predict E) ->
  (forall k e f w f' w', In k cbs -> e_cb E k e (f, w) = (Ok tt, (f', w')) -> target w' = target w /\ f_pred f' = f_pred f) ->
  predict (with_handler target E h) (fun w => snd w) n_mu mu_bs h cbs a = (Ok r, a', cbs', tr) ->
  exists vs pairs, r = Some pairs /\ length vs = e_len E TstData /\ tr = doc_predict (Cfg (cbs ++ [h]) 0 n_mu mu_bs) vs /\
    Forall2 (fun v q => v_pred v = Some (fst q) /\ snd q = want (v_item v)) vs pairs /\ count is_step tr = 0%nat.
Proof.
  intros W I P T E target want n_mu mu_bs h cbs a r a' cbs' tr Hh HT H1 H2 H3 H4 H5 H6 H7 H8 H.
  assert (Hz : count is_step tr = 0%nat).
  { eapply (C42_predict_no_update _ _ _ (with_handler target E h)); [|exact H]. apply (tame_handler E cbs h target HT). }
  unfold predict in H. destruct (predict_body (with_handler target E h) (cbs ++ [h]) _) as [r' s] eqn:EB.
  destruct r' as [[]|e]; [|discriminate]. injection H as <- <- <- <-.
  destruct ((fun h1 h2 h3 => predict_rec E cbs h target want Hh HT H1 H2 H3 H4 H5 H6 H7 H8 (Cfg (cbs ++ [h]) 0 n_mu mu_bs) eq_refl _ _ _ h1 h2 h3 EB)
     (conj eq_refl eq_refl) eq_refl eq_refl) as (vs & L & Ht & qs & F & Hq).
  exists vs, qs. auto 10.
Qed.
Print Assumptions C45_pairs.
(* volumes 0, 1, 2 whose loading is remembered in the world; the handler holds an old pair *)
Definition remember : env nat nat nat :=
  Fit.Env quiet_cb (fun _ => 3%nat) (fun _ i => nop i) (fun x w => (Ok tt, x)) (nop tt) (fun _ => nop tt) (nop tt) (nop tt) (nop tt)
    (fun w => (Ok (Some (10 * w)%nat), w)) None (nop tt) (fun _ => nop tt) (nop tt) (nop tt) (nop tt) (nop tt) (nop tt) (fun w => w).
Example C45_case :
  let '(r, a, cbs, tr) := predict (with_handler (fun w => Ok w) remember 9) (fun w => snd w) 10 5 9 [0; 1]%nat (Wrapper None (0%nat, Some [(7, 7)]%nat)) in
  r = Ok (Some [(0, 0); (10, 1); (20, 2)]%nat).
Proof. vm_compute. reflexivity. Qed.
Example C45_case_hyps :
  ~ In 9%nat [0; 1]%nat /\ tame remember [0; 1]%nat /\ (forall x w w', e_load remember x w = (Ok tt, w') -> @Ok nat w' = Ok x) /\
  keeps (fun w => Ok w) (e_predict remember) /\ keeps (fun w => Ok w) (e_cross remember).
Proof.
  split; [cbn; intuition discriminate|]. split; [intros k e f w f' w' _ [= <- <-]; auto 12|]. split; [now intros x w w' [= <-]|].
  split; [now intros w a w' [= _ <-]|now intros w a w' [= _ <-]].
Qed.

(* C45. A volume without a prediction makes predict raise AttributeError. *)
Theorem C45_no_prediction_refuted :
  exists W I P T (E : env W I P) (target : W -> res T) n_mu mu_bs h cbs a a' cbs' tr,
  tame E cbs /\ e_len E TstData = 1%nat /\
  predict (with_handler target E h) (fun w => snd w) n_mu mu_bs h cbs a = (Err AttributeError, a', cbs', tr) /\ In (Predicted None) tr.
Proof.
  exists nat, nat, nat, nat, (demo quiet_cb 0 0 1 None), (fun w => Ok w), 5%nat, 5%nat, 9%nat, [0%nat], (Wrapper None (0%nat, None)). do 3 eexists.
  split; [apply quiet_tame|]. split; [reflexivity|]. split; [vm_compute; reflexivity|]. cbn. repeat (first [left; reflexivity | right]).
Qed.
Print Assumptions C45_no_prediction_refuted.

(* C75. predict switches off the shuffling of the caller's volumes and does not switch it on again. *)
Theorem C75_shuffle_refuted :
  exists W I P (E : env W I P) (shuffles : W -> bool) n_mu mu_bs h cbs a x a' cbs' tr,
  (forall w, shuffles (e_no_shuffle E w) = false) /\
  predict E (fun w => w) n_mu mu_bs h cbs a = (Ok x, a', cbs', tr) /\ shuffles (w_w a) = true /\ shuffles (w_w a') = false.
Proof.
  exists bool, unit, unit,
    (Fit.Env (fun _ _ x => (Ok tt, x)) (fun _ => 2%nat) (fun _ _ w => (Ok tt, w)) (fun _ w => (Ok tt, w)) (fun w => (Ok tt, w)) (fun _ w => (Ok tt, w))
      (fun w => (Ok tt, w)) (fun w => (Ok tt, w)) (fun w => (Ok tt, w)) (fun w => (Ok None, w)) None (fun w => (Ok tt, w)) (fun _ w => (Ok tt, w))
      (fun w => (Ok tt, w)) (fun w => (Ok tt, w)) (fun w => (Ok tt, w)) (fun w => (Ok tt, w)) (fun w => (Ok tt, w)) (fun _ => false)),
    (fun w => w), 5%nat, 5%nat, 0%nat, [], (Wrapper None true). do 4 eexists. split; [reflexivity|]. split; [vm_compute; reflexivity|]. auto.
Qed.
Print Assumptions C75_shuffle_refuted.

(* C54. Without failures the prediction file has the pairs of all runs since the last overwriting, row by row, whatever the number of runs. *)
Theorem C54_rows :
  forall A B (rs : list (bool * list (A * B))) (acc : list (A * B)),
  runs (map (fun r => (fst r, map (fun q => (fst q, snd q, None)) (snd r))) rs) (Some (rows acc)) = Some (rows (kept_pairs rs acc)).
Proof. intros. apply runs_rows. Qed.
Print Assumptions C54_rows.
Example C54_case :
  kept_pairs [(false, [(1, 2)]); (true, [(3, 4); (5, 6)]); (false, [(7, 8)])]%nat [] = [(3, 4); (5, 6); (7, 8)]%nat /\
  rows [(3, 4); (5, 6); (7, 8)]%nat = H5 (Some [Some 3; Some 5; Some 7]%nat) (Some [Some 4; Some 6; Some 8]%nat).
Proof. auto. Qed.
(* C54. After a write that fails half-way, a later run adds rows that are not paired. *)
Theorem C54_failure_refuted :
  exists (f : h5 nat nat) preds targs,
  runs [(false, [(1, 10, None); (2, 20, Some 2)]); (false, [(3, 30, None)])]%nat None = Some f /\
  h_preds f = Some preds /\ h_targs f = Some targs /\ nth_error preds 1 = Some (Some 2%nat) /\ nth_error targs 1 = Some (Some 30%nat).
Proof. do 3 eexists. vm_compute. auto 10. Qed.
Print Assumptions C54_failure_refuted.
