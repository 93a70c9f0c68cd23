(* Property C94: the main metric and the reported epoch. *)
Require Import Reals Lra Lia.
From Verif Require Import Model.Metric Spec.MetricSpec Proofs.MetricP.
Open Scope R_scope.
Open Scope string_scope.
Open Scope list_scope.

(* C94. Of the metrics marked as main the first one leads: after the start of the fit it is the only main one among the metrics of the
   fit; other metrics keep their mark.  The logger follows it wherever it is in the list of callbacks, and the results of each epoch are
   the loss and the value of that metric, with the sign changed if higher is better. *)
Theorem C94_leader :
  forall info cbs fl es i, NoDup (metric_ids cbs) -> In SLogger cbs -> leader fl cbs i ->
  exists fl' g, metric_fit info cbs fl es = Ok (fl', g)
  /\ fl' i = true /\ (forall j, In (SMetric j) cbs -> j <> i -> fl' j = false) /\ (forall j, ~ In (SMetric j) cbs -> fl' j = fl j)
  /\ l_val g = map fst es
  /\ l_mets g = map (fun j => map (fun e => snd e j) es) (metric_ids cbs)
  /\ forall e es', es = es' ++ [e] ->
     exists m, l_result g = Some (fst e, Some m) /\ m = (if mt_lower (info i) then snd e i else xopp (snd e i)).
Proof.
  intros info cbs fl es i ND HL HLd. destruct (begin_leader cbs fl (None, false) i ND HLd) as (m1 & m2 & Em & Hq & EB).
  rewrite pick_logger in EB by exact HL. unfold metric_fit. rewrite EB. cbn [fst snd].
  rewrite (epochs_spec info (metric_ids cbs) (Some (length m1), true) (Some i) es).
  2: { exists i. split; [reflexivity|]. rewrite Em, nth_error_app2 by lia. now rewrite Nat.sub_diag. }
  cbn [bind]. eexists _, _. split; [reflexivity|]. cbn [l_val l_mets l_result]. unfold lead_flags.
  split; [now rewrite Nat.eqb_refl|]. split.
  { intros j I Nj. apply Nat.eqb_neq in Nj. rewrite Nj. apply ids_in, mem_spec in I. now rewrite I. }
  split.
  { intros j I. assert (Nj : j <> i). { intros ->. apply I, ids_in. rewrite Em. apply in_or_app. right. now left. } apply Nat.eqb_neq in Nj. rewrite Nj.
    destruct (mem j (metric_ids cbs)) eqn:E; [|reflexivity]. apply mem_spec, ids_in in E. contradiction. }
  split; [reflexivity|]. split; [reflexivity|]. intros e es' ->. unfold result_of. rewrite rev_app_distr. cbn. eexists. split; reflexivity.
Qed.
Print Assumptions C94_leader.
(* C94. The value that stands for the leading metric in the results is smaller exactly if the metric is better. *)
Theorem C94_sign : forall (info : nat -> metric) i x y, better (mt_lower (info i)) x y <-> xlt (if mt_lower (info i) then x else xopp x) (if mt_lower (info i) then y else xopp y) = true.
Proof.
  intros info i x y. unfold better. destruct (mt_lower (info i)); [tauto|]. destruct x, y; cbn; split; try discriminate; auto; intros H; apply Rltb_true; apply Rltb_true in H; lra.
Qed.
Print Assumptions C94_sign.
(* C94. The reported best epoch is the first of those with the best value of the leading metric, and everything that is reported is of
   that epoch. *)
Theorem C94_best :
  forall info cbs fl es i, NoDup (metric_ids cbs) -> In SLogger cbs -> leader fl cbs i -> names_ok info (metric_ids cbs) ->
  some_value (mt_lower (info i)) (map (fun e => snd e i) es) ->
  exists fl' g e x, metric_fit info cbs fl es = Ok (fl', g) /\ best_at (mt_lower (info i)) (map (fun e => snd e i) es) e /\ nth_error es e = Some x
  /\ get_results info (metric_ids cbs) true true g = Ok (report info (metric_ids cbs) x).
Proof.
  intros info cbs fl es i ND HL HLd HN HS. destruct (begin_leader cbs fl (None, false) i ND HLd) as (m1 & m2 & Em & Hq & EB).
  rewrite pick_logger in EB by exact HL. assert (Hk : nth_error (metric_ids cbs) (length m1) = Some i) by (rewrite Em, nth_error_app2 by lia; now rewrite Nat.sub_diag).
  destruct (nanbest_spec _ _ HS) as (e & Ee & Hb). destruct Hb as (v & Hv & Hb). rewrite nth_error_map in Hv. destruct (nth_error es e) as [x|] eqn:Ex; [|discriminate].
  unfold metric_fit. rewrite EB. cbn [fst snd]. rewrite (epochs_spec info (metric_ids cbs) (Some (length m1), true) (Some i) es) by eauto.
  cbn [bind]. eexists _, _, e, x. split; [reflexivity|]. split; [exists v; split; [rewrite nth_error_map, Ex; exact Hv|exact Hb]|]. split; [exact Ex|].
  unfold get_results. cbn [l_pick]. unfold pick_at at 1. rewrite Hk. cbn [bind l_mets]. unfold pick_at at 1. rewrite (nth_cols _ _ _ _ Hk). cbn [bind].
  unfold nanbest in Ee. replace (if mt_lower (info i) then nanargmin (map (fun e0 => snd e0 i) es) else nanargmax (map (fun e0 => snd e0 i) es)) with (Ok e). cbn [rmap bind].
  apply report_at; [exact HN| |apply row_at; exact Ex]. cbn [col_at]. unfold pick_at. rewrite nth_error_map, Ex. reflexivity.
Qed.
Print Assumptions C94_best.
(* C94. Without a main metric the best epoch is the first with the lowest validation loss. *)
Theorem C94_best_loss :
  forall info cbs fl es, In SLogger cbs -> no_leader fl cbs -> names_ok info (metric_ids cbs) -> some_value true (map fst es) ->
  exists g e x, metric_fit info cbs fl es = Ok (fl, g) /\ best_at true (map fst es) e /\ nth_error es e = Some x
  /\ get_results info (metric_ids cbs) true true g = Ok (report info (metric_ids cbs) x).
Proof.
  intros info cbs fl es HL HLd HN HS. pose proof (begin_none cbs fl (None, false) HLd) as EB. rewrite pick_logger in EB by exact HL.
  destruct (nanbest_spec _ _ HS) as (e & Ee & Hb). destruct Hb as (v & Hv & Hb). rewrite nth_error_map in Hv. destruct (nth_error es e) as [x|] eqn:Ex; [|discriminate].
  unfold metric_fit. rewrite EB. cbn [fst snd]. set (pk := (match metric_ids cbs with [] => None | _ => Some 0%nat end, false)) in *.
  rewrite (epochs_spec info (metric_ids cbs) pk None es) by (unfold pk; destruct (metric_ids cbs); reflexivity).
  cbn [bind]. eexists _, e, x. split; [reflexivity|]. split; [exists v; split; [rewrite nth_error_map, Ex; exact Hv|exact Hb]|]. split; [exact Ex|].
  unfold get_results. cbn [l_pick]. unfold pk at 1. cbn [nanbest] in Ee. change (nanbest true (map fst es)) with (nanargmin (map fst es)) in Ee.
  match goal with |- bind ?a _ = _ => assert (EI : a = Ok (Some e)) by (destruct (metric_ids cbs); cbn [l_val]; rewrite Ee; reflexivity); rewrite EI end. cbn [bind].
  apply report_at; [exact HN| |apply row_at; exact Ex]. cbn [col_at]. unfold pick_at. rewrite nth_error_map, Ex. reflexivity.
Qed.
Print Assumptions C94_best_loss.
(* C94. Otherwise the last epoch is reported; without validation epochs there is an exception. *)
Theorem C94_last :
  forall info cbs fl es x, NoDup (metric_ids cbs) -> In SLogger cbs -> names_ok info (metric_ids cbs) -> ((exists i, leader fl cbs i) \/ no_leader fl cbs) ->
  (exists fl' g, metric_fit info cbs fl (es ++ [x]) = Ok (fl', g) /\ get_results info (metric_ids cbs) true false g = Ok (report info (metric_ids cbs) x))
  /\ (exists fl' g, metric_fit info cbs fl [] = Ok (fl', g) /\ get_results info (metric_ids cbs) true false g = Err IndexError
      /\ get_results info (metric_ids cbs) true true g = Err ValueError).
Proof.
  intros info cbs fl es x ND HL HN HC.
  assert (G : exists fl' pk lead, train_begin cbs (fl, (None, false)) = (fl', pk) /\
    match pk with (Some k, true) => exists i, lead = Some i /\ nth_error (metric_ids cbs) k = Some i | (None, true) => False | (_, false) => lead = None end).
  { destruct HC as [(i & HLd)|HLd].
    - destruct (begin_leader cbs fl (None, false) i ND HLd) as (m1 & m2 & Em & Hq & EB). rewrite pick_logger in EB by exact HL. eexists _, _, (Some i). split; [exact EB|]. cbn. exists i. split; [reflexivity|]. rewrite Em, nth_error_app2 by lia. now rewrite Nat.sub_diag.
    - pose proof (begin_none cbs fl (None, false) HLd) as EB. rewrite pick_logger in EB by exact HL. eexists _, _, None. split; [exact EB|]. destruct (metric_ids cbs); reflexivity. }
  destruct G as (fl' & pk & lead & EB & HP). split.
  - unfold metric_fit. rewrite EB. cbn [fst snd]. rewrite (epochs_spec info _ pk lead _ HP). cbn [bind]. eexists _, _. split; [reflexivity|].
    unfold get_results. cbn [bind]. apply report_at; [exact HN| |apply row_last]. cbn [col_at]. rewrite map_app. cbn [map]. apply last_snoc.
  - unfold metric_fit. rewrite EB. cbn [fst snd]. rewrite (epochs_spec info _ pk lead _ HP). cbn [bind]. eexists _, _. split; [reflexivity|]. split; [reflexivity|].
    unfold get_results. cbn [l_pick l_val l_mets map]. destruct pk as [[k|] [|]]; try reflexivity; [|destruct HP].
    destruct HP as (i & -> & Hk). unfold pick_at at 1. rewrite Hk. cbn [bind]. unfold pick_at at 1. rewrite (nth_cols _ _ _ _ Hk). cbn [bind map]. destruct (mt_lower (info i)); reflexivity.
Qed.
Print Assumptions C94_last.

(* two metrics, the logger between them *)
Definition acc : nat -> metric := fun i => Metric (match i with O => "mse" | _ => "accuracy" end) (Nat.eqb i 0).
Definition two_cbs : list slot := [SOther; SMetric 1; SLogger; SMetric 0].
Definition two_epochs : list (xr * (nat -> xr)) := [(Fin 1, fun i => match i with O => Fin 5 | _ => Fin (1 / 2) end); (Fin 2, fun i => match i with O => NaN | _ => Fin (3 / 4) end)].
Example C94_case :
  NoDup (metric_ids two_cbs) /\ In SLogger two_cbs /\ leader (fun _ => true) two_cbs 1 /\ names_ok acc (metric_ids two_cbs)
  /\ some_value (mt_lower (acc 1)) (map (fun e => snd e 1%nat) two_epochs).
Proof.
  split; [repeat constructor; cbn; intuition discriminate|]. split; [cbn; auto|]. split.
  { exists [SOther], [SLogger; SMetric 0]. split; [reflexivity|]. split; [reflexivity|]. intros j [E|[]]. discriminate. }
  split; [unfold names_ok; cbn; repeat constructor; cbn; intuition discriminate|]. exists (Fin (1 / 2)). cbn. split; [auto|]. split; discriminate.
Qed.

(* C94 is false for metrics that are used again: the first fit took the mark from the second metric for good, so that a later fit with
   this metric alone has no main metric, and reports the epoch with the lowest loss instead of the best accuracy. *)
Theorem C94_again_refuted :
  exists info fl cbs1 cbs2 es1 es2 fl1 g1 g2 r,
  leader fl cbs1 0 /\ leader fl cbs2 1 /\ metric_fit info cbs1 fl es1 = Ok (fl1, g1) /\ metric_fit info cbs2 fl1 es2 = Ok (fl1, g2) /\
  mt_lower (info 1%nat) = false /\ map (fun e => snd e 1%nat) es2 = [Fin (1 / 2); Fin (3 / 4)] /\
  get_results info (metric_ids cbs2) true true g2 = Ok r /\ In ("accuracy", Fin (1 / 2)) r.
Proof.
  exists acc, (fun _ => true), [SMetric 0; SMetric 1; SLogger], [SMetric 1; SLogger], [], two_epochs.
  eexists _, _, (Mlog [Fin 1; Fin 2] [[Fin (1 / 2); Fin (3 / 4)]] (Some 0%nat, false) (Some (Fin 2, None))), [("loss", Fin 1); ("accuracy", Fin (1 / 2))].
  split; [exists [], [SMetric 1; SLogger]; split; [reflexivity|]; split; [reflexivity|intros j []]|].
  split; [exists [], [SLogger]; split; [reflexivity|]; split; [reflexivity|intros j []]|].
  split; [reflexivity|]. split; [reflexivity|]. split; [reflexivity|]. split; [reflexivity|].
  assert (B : Rltb 2 1 = false) by (destruct (Rltb_spec 2 1); [lra|reflexivity]).
  assert (EI : nanargmin [Fin 1; Fin 2] = Ok 0%nat) by (unfold nanargmin, nanarg; cbn [map fill xisnan forallb andb argbest xlt]; rewrite B; reflexivity).
  split; [unfold get_results; cbn [l_pick l_val]; rewrite EI; reflexivity|]. cbn. auto.
Qed.
Print Assumptions C94_again_refuted.
(* C94 is false for metrics of the same name, which is the default for two metrics of one class: one of them is missing in the report. *)
Theorem C94_names_refuted :
  exists info cbs fl es g r, NoDup (metric_ids cbs) /\ leader fl cbs 0 /\ rmap snd (metric_fit info cbs fl es) = Ok g /\ length (metric_ids cbs) = 2%nat /\
  get_results info (metric_ids cbs) true false g = Ok r /\ r = [("loss", Fin 1); ("Accuracy", Fin 3)] /\ snd (hd (NaN, fun _ => NaN) es) 0%nat = Fin 2.
Proof.
  exists (fun _ => Metric "Accuracy" false), [SMetric 0; SMetric 1; SLogger], (Nat.eqb 0), [(Fin 1, fun i => match i with O => Fin 2 | _ => Fin 3 end)]. eexists _, _.
  split; [repeat constructor; cbn; intuition discriminate|]. split; [exists [], [SMetric 1; SLogger]; split; [reflexivity|]; split; [reflexivity|intros j []]|].
  split; [reflexivity|]. split; [reflexivity|]. split; [reflexivity|]. split; reflexivity.
Qed.
Print Assumptions C94_names_refuted.
(* C94 is false if the only numbers are infinite: an epoch whose value is not a number is reported as the best. *)
Theorem C94_nan_refuted :
  exists info cbs fl es g r, no_leader fl cbs /\ In SLogger cbs /\ metric_fit info cbs fl es = Ok (fl, g) /\ map fst es = [NaN; PInf] /\
  get_results info (metric_ids cbs) true true g = Ok r /\ r = [("loss", NaN)].
Proof.
  exists acc, [SLogger], (fun _ => true), [(NaN, fun _ => NaN); (PInf, fun _ => NaN)]. eexists _, _. split; [intros j [E|[]]; discriminate|]. split; [now left|].
  repeat split; reflexivity.
Qed.
Print Assumptions C94_nan_refuted.
(* C94. Before the end of the training (or after a fit that failed) the metrics are not reported; if a metric leads, asking for the best
   epoch is an IndexError. *)
Theorem C94_early :
  forall info cbs fl es i, NoDup (metric_ids cbs) -> In SLogger cbs -> leader fl cbs i ->
  exists fl' g, metric_fit info cbs fl es = Ok (fl', g) /\ get_results info (metric_ids cbs) false true g = Err IndexError
  /\ forall e es', es = es' ++ [e] -> get_results info (metric_ids cbs) false false g = Ok [("loss", fst e)].
Proof.
  intros info cbs fl es i ND HL HLd. destruct (begin_leader cbs fl (None, false) i ND HLd) as (m1 & m2 & Em & Hq & EB).
  rewrite pick_logger in EB by exact HL. unfold metric_fit. rewrite EB. cbn [fst snd].
  rewrite (epochs_spec info (metric_ids cbs) (Some (length m1), true) (Some i) es).
  2: { exists i. split; [reflexivity|]. rewrite Em, nth_error_app2 by lia. now rewrite Nat.sub_diag. }
  cbn [bind]. eexists _, _. split; [reflexivity|]. split.
  - unfold get_results. cbn [l_pick]. unfold pick_at at 1. destruct (length m1); reflexivity.
  - intros e es' ->. unfold get_results. cbn [bind l_val col_at]. rewrite map_app. cbn [map]. rewrite last_snoc. reflexivity.
Qed.
Print Assumptions C94_early.
