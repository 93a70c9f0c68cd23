(* Warm-up callbacks (C46). *)
From Coq Require Import Lia Bool.
From Verif Require Import Base.RUtil Model.Fit Model.Warmup Spec.FitSpec Spec.ReplaySpec Spec.WarmupSpec Proofs.FitP Proofs.FitCount Proofs.ReplayP Proofs.WarmupP.
Open Scope list_scope.
Open Scope nat_scope.

(* a fit for examples: the world is what the callbacks act on, nothing else changes it *)
Definition idle {S A} (a : A) (w : S) : res A * S := (Ok a, w).
Definition with_skip {P} (b : bool) (f : fp P) : fp P :=
  FP (f_state f) (f_stop f) b (f_epoch f) (f_loss f) (f_mean f) (f_volume_id f) (f_pred f) (f_passive_bs f) (f_n_mu f) (f_mu_bs f) (f_n_epochs f).
Definition stage {S} (m : nat -> reaction S) (n_trn n_val : nat) : env S nat nat :=
  Fit.Env (fun k e x => let (f, w) := x in
      match m k e (View (f_state f) (f_epoch f) (f_skip f) (f_n_epochs f) (f_passive_bs f) w) with
      | Ok (b, w') => (Ok tt, (with_skip b f, w')) | Err x => (Err x, (f, w)) end)
    (fun d => match d with TrnData => n_trn | ValData => n_val | TstData => 0 end)
    (fun _ i => idle i) (fun _ => idle tt) (idle tt) (fun _ => idle tt) (idle tt) (idle tt) (idle tt) (idle (Some 4))
    (Some (fun p => idle (INR p))) (idle tt) (fun _ => idle tt) (idle tt) (idle tt) (idle tt) (idle tt) (idle tt) (fun w => w).
Lemma stage_follows {S} (m : nat -> reaction S) n_trn n_val cbs : follows (stage m n_trn n_val) cbs (fun s => s) m.
Proof.
  split; [|split; [|split; [|split; [|split]]]]; cbn.
  - intros k e f w f' w' _. unfold view_of. destruct (m k e _) as [[b s]|x]; [|discriminate]. now intros [= <- <-].
  - intros i g Hi. destruct i; try discriminate; injection Hi as <-; now intros w w' [= <-].
  - now intros d i w x w' [= _ <-].
  - now intros w x w' [= _ <-].
  - intros f p w x w' [= <-]. now intros [= _ <-].
  - now intros w w' [= <-].
Qed.
Lemma stage_tame {S} (m : nat -> reaction S) n_trn n_val cbs :
  (forall k e v b s, sets_skip e = false -> m k e v = Ok (b, s) -> b = vw_skip v) -> tame (stage m n_trn n_val) cbs.
Proof.
  intros H k e f w f' w' _. cbn. destruct (m k e _) as [[b s]|x] eqn:E; [|discriminate]. intros [= <- <-]. cbn. repeat (split; [reflexivity|]).
  intros He. exact (H _ _ _ _ _ He E).
Qed.
Lemma warm_stage_tame n_trn n_val cbs : tame (stage warm_cb n_trn n_val) cbs.
Proof.
  apply stage_tame. intros k e v b s He. rewrite warm_idle by (destruct e; now inversion He). now intros [= <- _].
Qed.

(* C46. The optimiser steps are left out in exactly the first n1 + ... + nk training epochs: the number of updates is that of the batches
   (with a loss) of the other epochs.  The callbacks of the fit are those of l0, at places 0, 1, ...; l0 may contain any other callbacks
   that leave skip_opt_step alone. *)
Theorem C46_frozen_epochs :
  forall W I P (E : env W I P) (obs : W -> list slot) n bs n_mu mu_bs validate a cbs' a' tr,
  let l0 := obs (w_w a) in
  tame E (places l0) -> 0 < bs -> follows E (places l0) obs warm_cb ->
  fit E n bs n_mu mu_bs validate (places l0) a = (Ok cbs', a', tr) ->
  let c := Cfg (places l0) bs n_mu mu_bs in
  exists xs, tr = doc_fit c xs /\ Forall (epoch_shape c validate (e_len E TrnData) (e_len E ValData)) xs /\
    (forall i x, nth_error xs i = Some x -> ep_skip x = (i <? total l0)) /\
    count is_step tr = list_sum (map (fun x => list_sum (map has_mean (sc_batches (ep_train x)))) (skipn (total l0) xs)).
Proof.
  intros W I P E obs n bs n_mu mu_bs validate a cbs' a' tr l0 HT Hb HF H c.
  destruct (fit_replay E obs warm_cb _ _ _ _ _ _ _ _ _ _ HT Hb HF H) as (xs & Ht & L1 & L2 & F1 & F2 & _ & _ & Hs). fold c in Ht, F1, Hs.
  assert (Hsk : forall i x, nth_error xs i = Some x -> ep_skip x = (i <? total l0)).
  { intros i x Hx. rewrite (Hs i x Hx). eapply inside_skip. eapply (upto_inside l0 c); [reflexivity| |reflexivity]. apply nth_error_Some. congruence. }
  exists xs. split; [exact Ht|]. split; [exact F1|]. split; [exact Hsk|]. rewrite Ht, fit_steps.
  clear - Hsk. revert Hsk. generalize (total l0). induction xs as [|x xs IH]; intros t H; [now destruct t|].
  cbn [map]. change (list_sum (?a :: ?b)) with (a + list_sum b). pose proof (H 0 x eq_refl) as H0. destruct t as [|t]; cbn [skipn].
  - cbn in H0. rewrite H0. cbn [map]. change (list_sum (?a :: ?b)) with (a + list_sum b). f_equal. rewrite (IH 0); [reflexivity|]. intros i y Hy. apply (H (S i) y Hy).
  - cbn in H0. rewrite H0. cbn [plus]. apply IH. intros i y Hy. apply (H (S i) y Hy).
Qed.
Print Assumptions C46_frozen_epochs.

(* C46. While training epoch i (counted from 0) runs, the warm-up callback of length n at place k, whose window starts after the windows of the
   warm-ups listed before it, is active exactly if i is in its window, and has counted the epochs of the window that are over. *)
Theorem C46_windows :
  forall W I P (E : env W I P) (obs : W -> list slot) n bs n_mu mu_bs validate a cbs' a' tr,
  let l0 := obs (w_w a) in
  tame E (places l0) -> 0 < bs -> follows E (places l0) obs warm_cb ->
  fit E n bs n_mu mu_bs validate (places l0) a = (Ok cbs', a', tr) ->
  let c := Cfg (places l0) bs n_mu mu_bs in
  exists xs, tr = doc_fit c xs /\ forall i t, during c xs i t ->
    let l := vw_st (replay warm_cb (fresh n bs l0) t) in
    (forall k len cnt on, nth_error l0 k = Some (SWarm len cnt on) ->
      nth_error l k = Some (SWarm len (Nat.min len (i - start l0 k)) ((start l0 k <=? i) && (i <? start l0 k + len)))) /\
    (forall k k' s s', nth_error l k = Some s -> nth_error l k' = Some s' -> is_on s = true -> is_on s' = true -> k = k').
Proof.
  intros W I P E obs n bs n_mu mu_bs validate a cbs' a' tr l0 HT Hb HF H c.
  destruct (fit_replay E obs warm_cb _ _ _ _ _ _ _ _ _ _ HT Hb HF H) as (xs & Ht & _). fold c in Ht. exists xs. split; [exact Ht|].
  intros i t (x & l & Hx & Hp & ->) l1. unfold l1. rewrite replay_app', (scan_idle c _ _ _ _ l Hp). clear l1.
  assert (Hi : i < length xs) by (apply nth_error_Some; congruence).
  pose proof (upto_inside l0 c (Some n) (Some bs) eq_refl xs i (fresh n bs l0) Hi eq_refl) as HI.
  assert (H1 : forall k len cnt on, nth_error l0 k = Some (SWarm len cnt on) ->
      nth_error (vw_st (replay warm_cb (fresh n bs l0) (upto c xs i))) k = Some (SWarm len (Nat.min len (i - start l0 k)) ((start l0 k <=? i) && (i <? start l0 k + len)))).
  { intros k len cnt on Hk. eapply inside_warm; eauto. }
  split; [exact H1|].
  assert (Hone : forall k s, nth_error (vw_st (replay warm_cb (fresh n bs l0) (upto c xs i))) k = Some s -> is_on s = true ->
    exists len cnt on, nth_error l0 k = Some (SWarm len cnt on) /\ start l0 k <= i < start l0 k + len).
  { intros k s Hk Ho. destruct HI as (q & p & Ev & G & Hs & _). rewrite Ev in Hk. cbn [vw_st] in Hk.
    destruct (nth_error l0 k) as [s0|] eqn:E0.
    - destruct s0 as [len cnt on|on|].
      + exists len, cnt, on. split; [reflexivity|]. specialize (H1 k len cnt on E0). rewrite Ev in H1. cbn [vw_st] in H1. rewrite Hk in H1. injection H1 as ->. cbn in Ho.
        apply andb_prop in Ho as [A B]. apply Nat.leb_le in A. apply Nat.ltb_lt in B. lia.
      + rewrite (nth_build _ _ _ _ _ _ _ E0) in Hk. injection Hk as <-. discriminate.
      + rewrite (nth_build _ _ _ _ _ _ _ E0) in Hk. injection Hk as <-. discriminate.
    - apply nth_error_None in E0. assert (k < length l0) by (rewrite <- (build_len p l0 (fst q) (snd q) 0); apply nth_error_Some; congruence). lia. }
  assert (Hlt : forall k k' len cnt on, k < k' -> nth_error l0 k = Some (SWarm len cnt on) -> start l0 k + len <= start l0 k').
  { intros k k' len cnt on Hlt Hk. unfold start, total. replace (firstn k l0) with (firstn k (firstn k' l0)) by (rewrite firstn_firstn; f_equal; lia).
    assert (Hk' : nth_error (firstn k' l0) k = Some (SWarm len cnt on)).
    { rewrite <- (firstn_skipn k' l0) in Hk. rewrite nth_error_app1 in Hk; [exact Hk|]. rewrite firstn_length. apply Nat.min_glb_lt; [exact Hlt|]. rewrite firstn_skipn in Hk. apply nth_error_Some. congruence. }
    rewrite <- (firstn_skipn (S k) (firstn k' l0)) at 2. rewrite (firstn_snoc _ _ _ Hk'), !lengths_app, !list_sum_app. cbn. lia. }
  intros k k' s s' Hk Hk' Ho Ho'. destruct (Hone k s Hk Ho) as (a1 & b1 & c1 & A1 & A2). destruct (Hone k' s' Hk' Ho') as (a2 & b2 & c2 & B1 & B2).
  destruct (Nat.lt_trichotomy k k') as [L|[L|L]]; [|exact L|].
  - specialize (Hlt _ _ _ _ _ L A1). lia.
  - specialize (Hlt _ _ _ _ _ L B1). lia.
Qed.
Print Assumptions C46_windows.

(* C46. A post-warm-up callback is never active in the warm-up and always active after the first epoch after it; one listed after all warm-ups is active
   from the first epoch after it on.  With warm-ups of at least one epoch, one listed before all of them is switched on one epoch later than
   any other (including one between warm-ups). *)
Theorem C46_post :
  forall W I P (E : env W I P) (obs : W -> list slot) n bs n_mu mu_bs validate a cbs' a' tr,
  let l0 := obs (w_w a) in
  tame E (places l0) -> 0 < bs -> follows E (places l0) obs warm_cb ->
  fit E n bs n_mu mu_bs validate (places l0) a = (Ok cbs', a', tr) ->
  let c := Cfg (places l0) bs n_mu mu_bs in
  exists xs, tr = doc_fit c xs /\ forall i t k on, during c xs i t -> nth_error l0 k = Some (SPost on) ->
    exists b, nth_error (vw_st (replay warm_cb (fresh n bs l0) t)) k = Some (SPost b) /\
      (i < total l0 -> b = false) /\ (total l0 < i -> b = true) /\
      (lengths (skipn k l0) = [] -> b = (total l0 <=? i)) /\
      (Forall (fun n => 0 < n) (lengths l0) -> lengths l0 <> [] -> lengths (firstn k l0) = [] -> b = (total l0 <? i)) /\
      (Forall (fun n => 0 < n) (lengths l0) -> lengths (firstn k l0) <> [] -> b = (total l0 <=? i)).
Proof.
  intros W I P E obs n bs n_mu mu_bs validate a cbs' a' tr l0 HT Hb HF H c.
  destruct (fit_replay E obs warm_cb _ _ _ _ _ _ _ _ _ _ HT Hb HF H) as (xs & Ht & _). fold c in Ht. exists xs. split; [exact Ht|].
  intros i t k on (x & l & Hx & Hp & ->) Hk. rewrite replay_app', (scan_idle c _ _ _ _ l Hp).
  assert (Hi : i < length xs) by (apply nth_error_Some; congruence).
  pose proof (upto_inside l0 c (Some n) (Some bs) eq_refl xs i (fresh n bs l0) Hi eq_refl) as HI.
  destruct (inside_post _ _ _ _ _ _ _ HI Hk) as (p & Hp' & HP). specialize (HP k). cbv zeta in HP. destruct HP as (P1 & P2 & P3 & P4).
  exists (p k). split; [exact Hp'|]. unfold before in *.
  assert (Hle : forall m, (m <? S i) = (m <=? i)) by (intros m; destruct (Nat.ltb_spec m (S i)), (Nat.leb_spec m i); try reflexivity; lia).
  split; [intros L; destruct (p k); [specialize (P1 eq_refl); lia|reflexivity]|]. split; [intros L; apply P2; lia|]. split; [|split].
  - intros Hn. rewrite P3; [apply Hle|]. rewrite <- (firstn_skipn k l0) at 2. rewrite lengths_app, Hn, app_nil_r. reflexivity.
  - intros F Hn Hz. rewrite (P4 F), Hz. destruct (lengths l0); [congruence|]. cbn [length Nat.ltb Nat.leb andb Nat.eqb]. reflexivity.
  - intros F Hn. rewrite (P4 F). destruct (lengths (firstn k l0)); [congruence|]. cbn [length Nat.eqb]. rewrite andb_false_r. apply Hle.
Qed.
Print Assumptions C46_post.

(* warm-ups of 1, 0 and 2 epochs, with post-warm-up callbacks before, between and after them: 5 epochs of 2 batches *)
Definition C46_slots : list slot := [SPost true; SWarm 1 7 true; SOther; SPost false; SWarm 0 0 false; SWarm 2 9 true; SPost true].
Example C46_case_hyps : tame (stage warm_cb 2 1) (places C46_slots) /\ follows (stage warm_cb 2 1) (places C46_slots) (fun s => s) warm_cb.
Proof. split; [apply warm_stage_tame|apply stage_follows]. Qed.
Example C46_case :
  let '(r, a, tr) := fit (stage warm_cb 2 1) 5 1 2 1 true (places C46_slots) (Wrapper None C46_slots) in
  r = Ok (places C46_slots) /\ w_w a = [SPost true; SWarm 1 1 false; SOther; SPost true; SWarm 0 0 false; SWarm 2 2 false; SPost true] /\
  count is_step tr = 4 /\ total C46_slots = 3 /\ map (start C46_slots) (places C46_slots) = [0; 0; 1; 1; 1; 1; 3].
Proof. vm_compute. auto 10. Qed.
