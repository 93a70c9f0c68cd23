(* Property C53: the losses that are logged. *)
From Coq Require Import Reals Lra Lia List Bool String.
From Verif Require Import Base.RUtil Base.XR Model.Fit Model.Monitor Spec.FitSpec Spec.MonitorSpec Proofs.MonitorP Properties.FitProps.
Import ListNotations.
Open Scope R_scope.
Open Scope list_scope.

Lemma seen_sum {I P} (c : cfg) (v : scan I P) : (0 < c_bs c)%nat -> batches_seen v ->
  xsum (batch_losses c v) = Fin (Rsum (losses (concat (sc_batches v))) / INR (c_bs c)).
Proof.
  intro Hb. unfold batches_seen, batch_losses. assert (INR (c_bs c) <> 0) by (apply not_0_INR; lia).
  induction 1 as [|vs bs Hv _ IH]; cbn [map xsum concat].
  - cbn. f_equal. field. auto.
  - rewrite IH, losses_app, Rsum_app. unfold logged_loss, mean_loss. destruct (losses vs) as [|l ls] eqn:E; [congruence|]. cbn [xadd]. f_equal. field. auto.
Qed.
Lemma full_scan {I P} (c : cfg) n (v : scan I P) : (0 < c_bs c)%nat -> scan_shape c n v -> (c_bs c <= n)%nat ->
  sc_rest v = [] /\ (0 < length (sc_batches v))%nat /\ length (scan_vols v) = (length (sc_batches v) * c_bs c)%nat.
Proof.
  intros Hb (H1 & H2 & H3) Hn. assert ((n <? c_bs c)%nat = false) as E by (apply Nat.ltb_ge; lia). rewrite E in H3.
  destruct (sc_rest v) eqn:Er; [|discriminate]. split; [reflexivity|]. split.
  - rewrite H1. apply Nat.div_str_pos. lia.
  - unfold scan_vols. rewrite Er, app_nil_r. clear -H2. induction H2 as [|vs bs E _ IH]; [reflexivity|]. cbn [concat length]. rewrite app_length, IH, E. lia.
Qed.

(* C53. A validation epoch of at least one batch, in which every batch has a prediction and the losses do not cancel out: the logged
   loss is the total loss over the number of scanned volumes, and the fractions that are logged for any of the sub-losses sum to their
   part of the total loss, times the number of scanned volumes over the number of those with a prediction. *)
Theorem C53_epoch :
  forall I P (c : cfg) k skip n (v : scan I P) s ds1 ds2,
  In k (c_cbs c) -> NoDup (c_cbs c) -> (0 < c_bs c)%nat -> scan_shape c n v -> (c_bs c <= n)%nat ->
  Forall (loss_iff true) (scan_vols v) -> batches_seen v -> Rsum (scan_losses v) <> 0 ->
  e_subs (r_see s) <> None -> r_ds s = ds1 ++ ds2 -> all_add_up ds1 (scan_losses v) ->
  exists s', log_run k ([SetEval] ++ doc_run c false skip v) s = Ok s' /\
    g_val (r_lg s') = g_val (r_lg s) ++ [Fin (Rsum (scan_losses v) / INR (length (scan_vols v)))] /\
    (forall sel, xsum (logged sel (g_sub (r_lg s'))) =
      xadd (xsum (logged sel (g_sub (r_lg s))))
           (Fin (Rsum (map (part sel) ds1) / Rsum (scan_losses v) * (INR (length (scan_vols v)) / INR (length (scan_losses v)))))) /\
    g_trn (r_lg s') = g_trn (r_lg s) /\ r_ds s' = ds2.
Proof.
  intros I P c k skip n v s ds1 ds2 Hk Hd Hb SH Hn F Seen NZ Es Ed A.
  destruct (full_scan c n v Hb SH Hn) as (Er & Hl & Hv).
  cbn [app]. rewrite run_cons. cbn [log_step bind].
  match goal with |- context [log_run k _ ?z] => set (s0 := z) end.
  destruct (run_valid c k Hk Hd skip v s0 ds1 ds2 F eq_refl Es Ed A) as (s1 & _ & _ & D1 & E1 & H1 & H2 & H3 & H4 & H5 & H6 & H7 & H8).
  assert (scan_losses v = losses (concat (sc_batches v))) as EL by (unfold scan_losses, scan_vols; now rewrite Er, app_nil_r).
  rewrite (seen_sum c v Hb Seen), <- EL in H5.
  assert (INR (c_bs c) <> 0) as NB by (apply not_0_INR; lia).
  assert (0 < length (scan_losses v))%nat as LV by (destruct (scan_losses v); [cbn in NZ; lra|cbn; lia]).
  assert (Rsum (scan_losses v) / INR (c_bs c) <> 0) as NZ' by (unfold Rdiv; apply Rmult_integral_contrapositive; split; [exact NZ|now apply Rinv_neq_0_compat]).
  destruct (epoch_end_num (r_lg s1) _ H5) as (g' & E' & T' & V' & S' & B'); [rewrite H6; exact Hl|exact NZ'|rewrite H7; exact LV|].
  rewrite E1, E'. cbn [bind]. eexists. split; [reflexivity|]. cbn [with_lg r_lg r_ds]. cbn [s0 r_lg] in *.
  assert (INR (length (sc_batches v)) <> 0) as NL by (apply not_0_INR; lia). assert (INR (length (scan_losses v)) <> 0) as NV by (apply not_0_INR; lia).
  rewrite V', T', H2, H6, Hv, mult_INR, H1. split; [|split; [|auto]].
  - do 3 f_equal. field. auto.
  - intro sel. rewrite S', H3, H6, H7, H8. do 2 f_equal. field. auto.
Qed.
Print Assumptions C53_epoch.

(* C53. If every volume has a prediction, they sum to one. *)
Lemma total_parts ds ls : all_add_up ds ls -> Rsum (map (part every) ds) = Rsum ls.
Proof. induction 1 as [|d l ds ls H _ IH]; [reflexivity|]. cbn [map]. change (part every d + Rsum (map (part every) ds) = l + Rsum ls). rewrite IH, part_every. unfold adds_up in H. now rewrite H. Qed.
Theorem C53_fractions :
  forall I P (c : cfg) k skip n (v : scan I P) s ds1 ds2,
  In k (c_cbs c) -> NoDup (c_cbs c) -> (0 < c_bs c)%nat -> scan_shape c n v -> (c_bs c <= n)%nat ->
  Forall (loss_iff true) (scan_vols v) -> Forall (fun x => v_pred x <> None) (scan_vols v) -> Rsum (scan_losses v) <> 0 ->
  e_subs (r_see s) <> None -> r_ds s = ds1 ++ ds2 -> all_add_up ds1 (scan_losses v) ->
  exists s', log_run k ([SetEval] ++ doc_run c false skip v) s = Ok s' /\
    xsum (logged every (g_sub (r_lg s'))) = xadd (xsum (logged every (g_sub (r_lg s)))) (Fin 1).
Proof.
  intros I P c k skip n v s ds1 ds2 Hk Hd Hb SH Hn F Pr NZ Es Ed A.
  assert (length (scan_losses v) = length (scan_vols v)) as EL.
  { unfold scan_losses. clear - F Pr. induction (scan_vols v) as [|x l IH]; [reflexivity|]. inversion F as [|? ? F1 F2]; inversion Pr as [|? ? P1 P2]; subst.
    unfold loss_iff in F1. cbn [losses flat_map length]. destruct (v_loss x); [cbn [app length]; f_equal; apply IH; auto|]. exfalso. apply (proj2 F1); auto. }
  assert (batches_seen v) as Seen.
  { unfold batches_seen. destruct SH as (_ & Sz & _). unfold scan_vols in F, Pr. apply Forall_app in F as [F _]. apply Forall_app in Pr as [Pr _].
    apply concat_forall in F. apply concat_forall in Pr. revert Sz F Pr. clear -Hb. induction (sc_batches v) as [|vs bs IH]; intros Sz F Pr; constructor.
    - inversion Sz as [|? ? S1 _]; inversion F as [|? ? F1 _]; inversion Pr as [|? ? P1 _]; subst. destruct vs as [|x vs]; [cbn in S1; lia|].
      inversion F1 as [|? ? F2 _]; inversion P1 as [|? ? P2 _]; subst. unfold loss_iff in F2. cbn [losses flat_map]. destruct (v_loss x); [discriminate|]. exfalso. apply (proj2 F2); auto.
    - inversion Sz; inversion F; inversion Pr; subst. apply IH; auto. }
  destruct (C53_epoch I P c k skip n v s ds1 ds2 Hk Hd Hb SH Hn F Seen NZ Es Ed A) as (s' & E & _ & Q & _).
  exists s'. split; [exact E|]. rewrite Q, (total_parts ds1 (scan_losses v) A), EL. do 2 f_equal.
  destruct (full_scan c n v Hb SH Hn) as (_ & Hl & Hv). field. split; [|exact NZ]. apply not_0_INR. rewrite Hv. nia.
Qed.
Print Assumptions C53_fractions.

(* C53. Over a whole fit: one training loss per batch, one validation loss per epoch, infinite for batches without any prediction;
   the best loss is the smallest validation loss. *)
Theorem C53_history :
  forall W I P (E : env W I P) n_epochs bs n_mu mu_bs validate cbs a cbs' a' tr k s ds s',
  tame E cbs -> (0 < bs)%nat -> In k cbs -> NoDup cbs -> has_loss E = true ->
  fit E n_epochs bs n_mu mu_bs validate cbs a = (Ok cbs', a', tr) ->
  let c := Cfg cbs bs n_mu mu_bs in
  e_subs (r_see s) <> None -> r_ds s = ds ->
  all_add_up ds (flat_map (fun i => match i with Loss l => [l] | _ => [] end) tr) ->
  log_run k tr s = Ok s' ->
  exists xs, tr = doc_fit c xs /\
    g_trn (r_lg s') = flat_map (fun x => batch_losses c (ep_train x)) xs /\
    g_val (r_lg s') = flat_map (fun x => match ep_valid x with
      | Some v => [xdiv (xsum (batch_losses c v)) (Fin (INR (length (sc_batches v))))] | None => [] end) xs /\
    smallest (g_best (r_lg s')) (g_val (r_lg s')).
Proof.
  intros W I P E n bs n_mu mu_bs validate cbs a cbs' a' tr k s ds s' HT Hb Hk Hd HL H c Es Ed A R.
  destruct (C41_order W I P E n bs n_mu mu_bs validate cbs a cbs' a' tr HT Hb H) as (xs & Etr & _ & _ & _ & _ & F). fold c in Etr.
  exists xs. split; [exact Etr|]. subst tr.
  assert (flat_map (fun i : item I P => match i with Loss l => [l] | _ => [] end) (doc_fit c xs) = flat_map epoch_losses xs) as EL.
  { exact (doc_fit_losses c xs). }
  rewrite EL in A. clear EL. rewrite HL in F. revert R. unfold doc_fit. rewrite run_app.
  rewrite (run_idle c k Hk Hd) by reflexivity. cbn [bind]. rewrite run_app, (run_on c k Hk Hd). cbn [log_cb bind].
  match goal with |- context [log_run k _ ?z] => set (s0 := z) end. rewrite run_app.
  destruct (log_run k (flat_map (doc_epoch c) xs) s0) as [s1|] eqn:R1; [|discriminate]. cbn [bind].
  rewrite (run_idle c k Hk Hd) by reflexivity. intros [= <-].
  assert (smallest (g_best (r_lg s0)) (g_val (r_lg s0))) as S0 by (split; [discriminate|split; [intros ? []|left; reflexivity]]).
  destruct (run_epochs c k Hk Hd xs F s0 ds [] s1 Es) as (H1 & H2 & H3); auto.
  now rewrite app_nil_r.
Qed.
Print Assumptions C53_history.

(* C53. A validation set smaller than a batch: logging fails. *)
Theorem C53_few_volumes :
  forall I P (c : cfg) k skip n (v : scan I P) s ds1 ds2,
  In k (c_cbs c) -> NoDup (c_cbs c) -> (0 < c_bs c)%nat -> scan_shape c n v -> (n < c_bs c)%nat ->
  Forall (loss_iff true) (scan_vols v) ->
  e_subs (r_see s) <> None -> r_ds s = ds1 ++ ds2 -> all_add_up ds1 (scan_losses v) ->
  log_run k ([SetEval] ++ doc_run c false skip v) s = Err ZeroDivisionError.
Proof.
  intros I P c k skip n v s ds1 ds2 Hk Hd Hb (SH & _) Hn F Es Ed A.
  cbn [app]. rewrite run_cons. cbn [log_step bind].
  match goal with |- context [log_run k _ ?z] => set (s0 := z) end.
  destruct (run_valid c k Hk Hd skip v s0 ds1 ds2 F eq_refl Es Ed A) as (s1 & _ & _ & D1 & E1 & H1 & H2 & H3 & H4 & H5 & H6 & H7 & H8).
  rewrite E1, epoch_end_few; [reflexivity|]. rewrite H6, SH. now apply Nat.div_small.
Qed.
Print Assumptions C53_few_volumes.

Definition log0 : lg := Lg [] [] [] PInf (Fin 0) 0 0 [].
Definition see0 : lsee := Lsee None false None (Some []).
Definition two (l1 l2 : option R) : scan nat nat :=
  let v l := Vol 0%nat (match l with Some _ => Some 0%nat | None => None end) l in Scan [[v l1; v l2]] [].
Lemma two_ok l1 l2 : Forall (loss_iff true) (scan_vols (two l1 l2)).
Proof.
  assert (forall l, loss_iff true (Vol 0%nat (match l with Some _ => Some 0%nat | None => None end) l)) as H.
  { intros [l|]; split; cbn; try (intros; split; [reflexivity|discriminate]); try (intros; discriminate); [intro X; congruence|intros [_ X]; congruence]. }
  change (Forall (loss_iff true) [Vol 0%nat (match l1 with Some _ => Some 0%nat | None => None end) l1; Vol 0%nat (match l2 with Some _ => Some 0%nat | None => None end) l2]).
  constructor; [apply H|constructor; [apply H|constructor]].
Qed.
Definition halves (l : R) : list (string * R) := [("error"%string, l / 2); ("cost"%string, l / 2)].

(* C53 is false when a volume has no prediction: the fractions of an epoch sum to two *)
Theorem C53_lost_refuted :
  exists (c : cfg) k (v : scan nat nat) s s',
    In k (c_cbs c) /\ NoDup (c_cbs c) /\ scan_shape c 2 v /\ Forall (loss_iff true) (scan_vols v) /\
    all_add_up (r_ds s) (scan_losses v) /\ g_sub (r_lg s) = [] /\
    log_run k ([SetEval] ++ doc_run c false false v) s = Ok s' /\ xsum (logged every (g_sub (r_lg s'))) = Fin 2.
Proof.
  set (c := Cfg [0%nat] 2 0 1). set (v := two (Some 4) None). set (s := Lrun see0 [halves 4] log0).
  assert (scan_shape c 2 v) as H1 by (split; [reflexivity|split; [repeat constructor|reflexivity]]).
  assert (Forall (loss_iff true) (scan_vols v)) as H2 by apply two_ok.
  assert (all_add_up (r_ds s) (scan_losses v)) as H3 by (repeat constructor; unfold adds_up; cbn; lra).
  assert (NoDup (c_cbs c)) as ND by (repeat constructor; intros []).
  assert (batches_seen v) as H5 by (repeat constructor; discriminate).
  assert (Rsum (scan_losses v) <> 0) as H6 by (cbn; lra).
  assert (e_subs (r_see s) <> None) as H7 by discriminate.
  destruct (C53_epoch nat nat c 0%nat false 2 v s [halves 4] [] (or_introl eq_refl) ND (Nat.lt_0_succ _) H1 (le_n 2) H2 H5 H6 H7 eq_refl H3) as (s' & E & _ & Q & _).
  exists c, 0%nat, v, s, s'. repeat (split; [first [exact H1|exact H2|exact H3|exact ND|exact E|reflexivity|now left]|]).
  rewrite Q, (total_parts [halves 4] (scan_losses v) H3). cbn. f_equal. lra.
Qed.
Print Assumptions C53_lost_refuted.

(* C53 is false when the loss of an epoch is zero: logging fails *)
Theorem C53_zero_refuted :
  exists (c : cfg) k (v : scan nat nat) s,
    In k (c_cbs c) /\ NoDup (c_cbs c) /\ scan_shape c 2 v /\ Forall (loss_iff true) (scan_vols v) /\
    Forall (fun x => v_pred x <> None) (scan_vols v) /\ all_add_up (r_ds s) (scan_losses v) /\
    log_run k ([SetEval] ++ doc_run c false false v) s = Err ZeroDivisionError.
Proof.
  set (c := Cfg [0%nat] 2 0 1). set (v := two (Some 0) (Some 0)). set (s := Lrun see0 [halves 0; halves 0] log0).
  assert (scan_shape c 2 v) as H1 by (split; [reflexivity|split; [repeat constructor|reflexivity]]).
  assert (Forall (loss_iff true) (scan_vols v)) as H2 by apply two_ok.
  assert (all_add_up (r_ds s) (scan_losses v)) as H3 by (repeat constructor; unfold adds_up; cbn; lra).
  assert (NoDup (c_cbs c)) as ND by (repeat constructor; intros []).
  assert (Forall (fun x => v_pred x <> None) (scan_vols v)) as H4 by (repeat constructor; discriminate).
  exists c, 0%nat, v, s. repeat (split; [first [exact H1|exact H2|exact H3|exact H4|exact ND|reflexivity|now left]|]).
  cbn [app]. rewrite run_cons. cbn [log_step bind].
  match goal with |- context [log_run _ _ ?z] => set (s0 := z) end.
  cbv [c v two doc_run doc_scan doc_batch doc_end doc_vol on c_cbs map sc_batches sc_rest flat_map app Nat.div Nat.divmod fst Nat.sub repeat concat c_n_mu c_mu_bs v_item v_pred v_loss].
  cbv [log_run foldM log_step log_cb Nat.eqb bind is_valid s0 s see0 log0 r_see r_ds r_lg e_mode e_pred e_mean e_subs halves g_trn g_val g_sub g_best g_tmp g_batches g_volumes g_tmp_sub].
  match goal with |- context [log_epoch_end ?z] => rewrite (epoch_end_zero z); [reflexivity| |] end.
  - cbn [g_tmp]. unfold mean_loss. cbn [losses flat_map v_loss app or_inf xadd c_bs]. f_equal. cbn. lra.
  - cbn. discriminate.
Qed.
Print Assumptions C53_zero_refuted.

(* two volumes with losses 4 and 2: the fractions are a half each, the logged loss is 3 *)
Example C53_case :
  let c := Cfg [0%nat] 2 10 5 in let v := two (Some 4) (Some 2) in let s := Lrun see0 [halves 4; halves 2] log0 in
  (In 0%nat (c_cbs c) /\ scan_shape c 2 v /\ Forall (loss_iff true) (scan_vols v) /\ batches_seen v /\ Rsum (scan_losses v) = 6 /\
   Forall (fun x => v_pred x <> None) (scan_vols v) /\ all_add_up (r_ds s) (scan_losses v)) /\
  exists s', log_run 0 ([SetEval] ++ doc_run c false false v) s = Ok s' /\ g_val (r_lg s') = [Fin 3] /\ xsum (logged every (g_sub (r_lg s'))) = Fin 1 /\
    xsum (logged (String.eqb "cost") (g_sub (r_lg s'))) = Fin (1 / 2).
Proof.
  intros c v s.
  assert (scan_shape c 2 v) as H1 by (split; [reflexivity|split; [repeat constructor|reflexivity]]).
  assert (Forall (loss_iff true) (scan_vols v)) as H2 by apply two_ok.
  assert (all_add_up (r_ds s) (scan_losses v)) as H3 by (repeat constructor; unfold adds_up; cbn; lra).
  assert (NoDup (c_cbs c)) as ND by (repeat constructor; intros []).
  assert (batches_seen v) as H5 by (repeat constructor; discriminate).
  assert (Rsum (scan_losses v) = 6) as H6 by (cbn; lra).
  split; [repeat (split; [first [exact H1|exact H2|exact H3|exact ND|exact H5|exact H6|now left|repeat constructor; discriminate]|]); exact H3|].
  assert (e_subs (r_see s) <> None) as H7 by discriminate. assert (Rsum (scan_losses v) <> 0) as H8 by (rewrite H6; lra).
  destruct (C53_epoch nat nat c 0%nat false 2 v s [halves 4; halves 2] [] (or_introl eq_refl) ND (Nat.lt_0_succ _) H1 (le_n 2) H2 H5 H8 H7 eq_refl H3) as (s' & E & V & Q & _).
  exists s'. split; [exact E|]. rewrite V, !Q, H6. split; [|split]; cbn; [do 2 f_equal; lra|f_equal; lra|f_equal; lra].
Qed.
