(* Property C104: what the logger draws, prints and reports. *)
From Coq Require Import Lia Lra String ZArith.
From Verif Require Import Base.RUtil Model.Fit Model.Monitor Model.Metric Model.Observer Model.LogPlot Spec.FitSpec Spec.MonitorSpec Spec.MetricSpec Spec.SaverSpec
  Proofs.FitP Proofs.FitScan Proofs.FitAll Proofs.MonitorP Proofs.MetricP Proofs.ObserverP Proofs.HeatGifP Proofs.LogPlotP
  Properties.FitProps Properties.MonitorProps Properties.MetricProps Properties.SaverProps.
From Verif Require Import Base.XR.
Open Scope R_scope.
Open Scope list_scope.

(* C104. In a fit with validation and at least one full batch, at the end of each epoch: the j-th batch of the training of epoch e is drawn at e + j/(number of batches), its last
   one at the place of the validation loss of the epoch, and what is printed is the number of the epoch, the mean of the losses of the batches of its training, and of its
   validation. *)
Theorem C104_epochs :
  forall W I P (E : env W I P) n_epochs bs n_mu mu_bs cbs a cbs' a' tr k s s',
  tame E cbs -> (0 < bs)%nat -> In k cbs -> NoDup cbs -> has_loss E = true -> (bs <= e_len E TrnData)%nat ->
  fit E n_epochs bs n_mu mu_bs true cbs a = (Ok cbs', a', tr) ->
  let c := Cfg cbs bs n_mu mu_bs in let nb := trn_batches (e_len E TrnData) bs in
  e_subs (r_see s) <> None -> all_add_up (r_ds s) (flat_map (fun i => match i with Loss l => [l] | _ => [] end) tr) ->
  log_run k tr s = Ok s' ->
  exists xs, tr = doc_fit c xs /\
    forall done x v rest, xs = done ++ x :: rest -> ep_valid x = Some v ->
    exists s1 ts vs, log_run k (on c SetWrapper ++ on c TrainBegin ++ flat_map (doc_epoch c) (done ++ [x])) s = Ok s1 /\
      training_curve nb (r_lg s1) = Ok ts /\ length ts = (nb * S (length done))%nat /\
      (forall j b, nth_error (sc_batches (ep_train x)) j = Some b ->
         nth_error ts (length done * nb + j) = Some (INR (length done) + INR (S j) / INR nb, logged_loss c b)) /\
      length (sc_batches (ep_train x)) = nb /\
      validation_curve (r_lg s1) = Ok vs /\ length vs = S (length done) /\
      (let mean := fun sc => xdiv (xsum (batch_losses c sc)) (Fin (INR (length (sc_batches sc)))) in
       nth_error vs (length done) = Some (INR (S (length done)), mean v) /\
       printed nb (r_lg s1) = Ok (S (length done), mean (ep_train x), mean v)).
Proof.
  intros W I P E n bs n_mu mu_bs cbs a cbs' a' tr k s s' HT Hb Hk Hd HL Hn H c nb Es A R.
  destruct (C41_order W I P E n bs n_mu mu_bs true cbs a cbs' a' tr HT Hb H) as (xs & Etr & _ & _ & _ & SH & F). fold c in Etr, SH.
  exists xs. split; [exact Etr|]. intros done x v rest Ex Ev. subst tr.
  assert (flat_map (fun i : item I P => match i with Loss l => [l] | _ => [] end) (doc_fit c xs) = flat_map epoch_losses xs) as EL by exact (doc_fit_losses c xs).
  rewrite EL in A. clear EL. rewrite HL in F. set (xs1 := done ++ [x]) in *. assert (Exs : xs = xs1 ++ rest) by (unfold xs1; now rewrite <- app_assoc).
  assert (Hnb : (0 < nb)%nat) by (unfold nb, trn_batches; pose proof (Nat.div_str_pos (e_len E TrnData) bs); lia).
  assert (L1 : length xs1 = S (length done)) by (unfold xs1; rewrite app_length; cbn; lia).
  rewrite Exs in *. apply Forall_app in F as [F _]. apply Forall_app in SH as [SH _]. rewrite flat_map_app in A. apply all_split in A as (d1 & d2 & Ed & A1 & A2).
  revert R. unfold doc_fit. rewrite run_app. rewrite (run_idle c k Hk Hd) by reflexivity. cbn [bind]. rewrite run_app, (run_on c k Hk Hd). cbn [log_cb bind].
  match goal with |- context [log_run k _ ?z] => set (s0 := z) end. rewrite run_app, flat_map_app, run_app.
  destruct (log_run k (flat_map (doc_epoch c) xs1) s0) as [s1|] eqn:R1; [|discriminate]. intros _.
  assert (smallest (g_best (r_lg s0)) (g_val (r_lg s0))) as S0 by (split; [discriminate|split; [intros ? []|left; reflexivity]]).
  destruct (run_epochs c k Hk Hd xs1 F s0 d1 d2 s1 Es Ed A1 S0 R1) as (G1 & G2 & _). cbn [s0 with_lg r_lg g_trn g_val app] in G1, G2.
  assert (Lb : Forall (fun y => length (batch_losses c (ep_train y)) = nb) xs1).
  { eapply Forall_impl; [|exact SH]. intros y [[Y _] _]. unfold batch_losses. rewrite map_length. exact Y. }
  assert (Lv : Forall (fun y : epoch I P => length (val_loss c y) = 1%nat) xs1).
  { eapply Forall_impl; [|exact SH]. intros y [_ Y]. unfold val_loss. destruct (ep_valid y); [reflexivity|discriminate]. }
  assert (Nv : length (g_val (r_lg s1)) = S (length done)) by (rewrite G2, flat_one by exact Lv; exact L1).
  assert (Nt : length (g_trn (r_lg s1)) = (nb * S (length done))%nat) by (rewrite G1, (flat_len _ nb) by exact Lb; rewrite L1; lia).
  assert (Xn : nth_error xs1 (length done) = Some x) by (unfold xs1; rewrite nth_error_app2, Nat.sub_diag by lia; reflexivity).
  assert (Lx : length (sc_batches (ep_train x)) = nb).
  { unfold xs1 in SH. apply Forall_app in SH as [_ SH]. inversion SH as [|? ? [[Y _] _]]; subst. exact Y. }
  exists s1. do 2 eexists. split; [|split; [|split; [|split; [|split; [|split; [|split; [|]]]]]]].
  - rewrite run_app, (run_idle c k Hk Hd) by reflexivity. cbn [bind]. rewrite run_app, (run_on c k Hk Hd). exact R1.
  - unfold training_curve. destruct (Nat.eqb_spec nb 0); [lia|]. rewrite Nv. apply curve_ok. now rewrite place_len, Nt.
  - rewrite combine_length, place_len, Nt. lia.
  - intros j b Hj. assert (Hj' : (j < nb)%nat) by (rewrite <- Lx; apply nth_error_Some; congruence).
    apply nth_combine_some; [apply place_nth; lia|]. rewrite G1. apply (flat_nth _ nb _ Lb _ _ x); [exact Xn|]. unfold batch_losses. now apply map_nth_error with (f := logged_loss c).
  - exact Lx.
  - unfold validation_curve. apply curve_ok. now rewrite map_length, seq_length.
  - rewrite combine_length, map_length, seq_length, Nv. lia.
  - assert (V : nth_error (g_val (r_lg s1)) (length done) = Some (xdiv (xsum (batch_losses c v)) (Fin (INR (length (sc_batches v)))))).
    { rewrite G2. pose proof (flat_nth _ 1 _ Lv (length done) 0 x _ Xn ltac:(unfold val_loss; rewrite Ev; reflexivity)) as Q. now rewrite Nat.mul_1_r, Nat.add_0_r in Q. }
    split.
    + apply nth_combine_some; [|exact V]. rewrite nth_error_map, seq_nth_some by lia. reflexivity.
    + unfold printed. rewrite Nv. assert (Gv : g_val (r_lg s1) = flat_map (val_loss c) done ++ val_loss c x) by (rewrite G2; unfold xs1; rewrite flat_map_app; cbn; now rewrite app_nil_r).
      rewrite Gv. unfold val_loss at 2. rewrite Ev. rewrite last_snoc. cbn [bind]. rewrite G1. unfold xs1. rewrite last_of_flat; [|exact Hnb|exact Lb].
      unfold np_mean. rewrite fold_xadd, xadd_0. unfold batch_losses at 2. now rewrite map_length.
Qed.
Print Assumptions C104_epochs.
(* an example: one epoch of two volumes, all with loss 4 *)
Lemma losses_le {I P} (vs : list (vol I P)) : (length (losses vs) <= length vs)%nat.
Proof. induction vs as [|v vs IH]; [cbn; lia|]. unfold losses in *. cbn [flat_map length]. rewrite app_length. destruct (v_loss v); cbn [length]; lia. Qed.
Example C104_case :
  let E := upd_env quiet_cb 2 2 in let s := Lrun see0 (repeat (halves 4) 4) log0 in
  exists a' tr s', fit E 1 2 10 5 true [0%nat] (Wrapper None 0%nat) = (Ok [0%nat], a', tr) /\ tame E [0%nat] /\ has_loss E = true /\ trn_batches (e_len E TrnData) 2 = 1%nat /\
    all_add_up (r_ds s) (flat_map (fun i => match i with Loss l => [l] | _ => [] end) tr) /\ log_run 0 tr s = Ok s'.
Proof.
  intros E s. set (c := Cfg [0%nat] 2 10 5). destruct (fit E 1 2 10 5 true [0%nat] (Wrapper None 0%nat)) as [[r a'] tr] eqn:EF.
  assert (K : let '(r, a, tr) := fit E 1 2 10 5 true [0%nat] (Wrapper None 0%nat) in
     r = Ok [0%nat] /\ flat_map (fun i : item nat nat => match i with Loss l => [l] | _ => [] end) tr = [INR 4; INR 4; INR 4; INR 4]) by (vm_compute; auto).
  rewrite EF in K. destruct K as [-> K]. assert (H4 : INR 4 = 4) by (cbn; lra). rewrite H4 in K.
  assert (HA : all_add_up (repeat (halves 4) 4) [4; 4; 4; 4]) by (repeat constructor; unfold adds_up; cbn; lra).
  assert (HT : tame E [0%nat]) by apply upd_tame.
  destruct (C41_order _ _ _ E 1 2 10 5 true [0%nat] _ _ _ _ HT ltac:(lia) EF) as (xs & Etr & _ & _ & L3 & SH & F). fold c in Etr, SH.
  assert (L1 : length xs = 1%nat).
  { apply L3. intros k e f w r f' w' _ [= <- <- <-]. auto 12. }
  destruct xs as [|x [|y xs]]; [discriminate L1| |discriminate L1]. inversion SH as [|? ? [S1 S2] _]. clear SH. subst x0 l. inversion F as [|? ? F1 _]. clear F. subst x0 l tr.
  destruct (ep_valid x) as [v|] eqn:Ev; [destruct S2 as [_ S2]|discriminate S2].
  rewrite (doc_fit_losses c [x] : flat_map _ _ = _) in K. cbn [flat_map] in K. unfold epoch_losses in K. rewrite Ev, app_nil_r in K.
  destruct (full_scan c 2 (ep_train x) ltac:(cbn; lia) S1 ltac:(cbn; lia)) as (T1 & T2 & T3). destruct (full_scan c 2 v ltac:(cbn; lia) S2 ltac:(cbn; lia)) as (V1 & V2 & V3).
  change (2 / c_bs c)%nat with 1%nat in *. change (c_bs c) with 2%nat in *.
  pose proof (losses_le (scan_vols (ep_train x))) as B1. pose proof (losses_le (scan_vols v)) as B2. fold (scan_losses (ep_train x)) in B1. fold (scan_losses v) in B2.
  assert (B3 : (length (scan_losses (ep_train x)) + length (scan_losses v) = 4)%nat) by (rewrite <- app_length, K; reflexivity).
  assert (Tl : exists a b d e, scan_losses (ep_train x) = [a; b] /\ scan_losses v = [d; e] /\ [a; b; d; e] = [4; 4; 4; 4]).
  { clear EF L3 HA H4. destruct S1 as [N1 _], S2 as [N2 _]. change (2 / c_bs c)%nat with 1%nat in N1, N2. rewrite T3, N1 in B1. rewrite V3, N2 in B2. destruct (scan_losses (ep_train x)) as [|a [|b [|]]]; cbn in *; try lia. destruct (scan_losses v) as [|d [|e [|]]]; cbn in *; try lia.
    exists a, b, d, e. auto. }
  destruct Tl as (a & b & d & e & Ta & Tv & Tq). injection Tq as -> -> -> ->.
  assert (Fv : Forall (loss_iff true) (scan_vols v)).
  { unfold epoch_vols in F1. rewrite Ev in F1. now apply Forall_app in F1 as [_ F1]. }
  assert (Bs : batches_seen v).
  { unfold scan_losses, scan_vols in Tv. rewrite V1, app_nil_r in Tv. destruct S2 as (S2 & _). change (2 / c_bs c)%nat with 1%nat in S2. unfold batches_seen.
    destruct (sc_batches v) as [|y [|y' l]]; [discriminate S2| |discriminate S2]. cbn in Tv. rewrite app_nil_r in Tv. constructor; [|constructor]. intros Q. unfold losses in Q. rewrite Tv in Q. discriminate Q. }
  exists a', (doc_fit c [x]).
  assert (R : exists s', log_run 0 (doc_fit c [x]) s = Ok s').
  { assert (Hk : In 0%nat (c_cbs c)) by now left. assert (Hd : NoDup (c_cbs c)) by (repeat constructor; intros []).
    unfold doc_fit. rewrite run_app, (run_idle c 0 Hk Hd) by reflexivity. cbn [bind]. rewrite run_app, (run_on c 0 Hk Hd). cbn [log_cb bind].
    match goal with |- context [log_run 0 _ ?z] => set (s0 := z) end. cbn [flat_map]. rewrite app_nil_r, run_app.
    unfold doc_epoch. rewrite Ev. rewrite run_app. cbn [log_run foldM log_step bind]. change (foldM (fun s i => log_step 0 i s)) with (@log_run nat nat 0).
    rewrite run_app.
    edestruct (run_train c 0 Hk Hd (ep_skip x) (ep_train x)) as (s2 & R2 & _ & R3 & R4 & _); [| | | |rewrite R2].
    - reflexivity.
    - discriminate.
    - cbn. change [halves 4; halves 4; halves 4; halves 4] with ([halves 4; halves 4] ++ [halves 4; halves 4]). reflexivity.
    - rewrite Ta. repeat constructor; unfold adds_up; cbn; lra.
    - cbn [bind]. destruct (C53_epoch _ _ c 0 (ep_skip x) 2 v s2 [halves 4; halves 4] [] Hk Hd ltac:(cbn; lia) S2 ltac:(cbn; lia) Fv Bs) as (s3 & R5 & _).
      + rewrite Tv. cbn. lra.
      + exact R3.
      + now rewrite R4, app_nil_r.
      + rewrite Tv. repeat constructor; unfold adds_up; cbn; lra.
      + rewrite R5. cbn [bind]. rewrite (run_idle c 0 Hk Hd) by reflexivity. eauto. }
  destruct R as [s' R]. exists s'. split; [reflexivity|]. split; [exact HT|]. split; [reflexivity|]. split; [reflexivity|]. split; [|exact R].
  rewrite (doc_fit_losses c [x] : flat_map _ _ = _). cbn [flat_map]. unfold epoch_losses. rewrite Ev, app_nil_r, Ta, Tv. exact HA.
Qed.

(* With fewer volumes for training than a batch has, the logger cannot draw; it prints NaN for the training. *)
Theorem C104_no_batch :
  forall n bs g, (n < bs)%nat -> g_trn g = [] -> g_val g <> [] ->
  training_curve (trn_batches n bs) g = Err ZeroDivisionError /\ exists v, printed (trn_batches n bs) g = Ok (length (g_val g), NaN, v).
Proof.
  intros n bs g H Ht Hv. unfold trn_batches. rewrite Nat.div_small by exact H. split; [reflexivity|]. unfold printed, pick_last.
  destruct (rev (g_val g)) as [|v l] eqn:Er; [apply (f_equal (@rev xr)) in Er; rewrite rev_involutive in Er; contradiction|].
  exists v. cbn [bind last_of]. rewrite Ht. unfold np_mean. cbn. destruct (Req_EM_T 0 0); [|congruence]. unfold inf_of_sign. destruct (Rlt_dec 0 0); [lra|]. reflexivity.
Qed.
Print Assumptions C104_no_batch.

(* The values of the leading metric are drawn, one for each epoch. *)
Theorem C104_metric :
  forall info cbs fl es i nb, NoDup (metric_ids cbs) -> In SLogger cbs -> leader fl cbs i -> (1 < length es)%nat -> (0 < nb)%nat ->
  exists fl' g pts, metric_fit info cbs fl es = Ok (fl', g) /\ metric_curve nb g = Ok (Some pts) /\ length pts = length es /\
    forall e x, nth_error es e = Some x -> exists at_, nth_error pts e = Some (at_, snd x i).
Proof.
  intros info cbs fl es i nb ND HL HLd He Hn. destruct (begin_leader cbs fl (None, false) i ND HLd) as (m1 & m2 & Em & Hq & EB).
  rewrite pick_logger in EB by exact HL. assert (Hk : nth_error (metric_ids cbs) (length m1) = Some i) by (rewrite Em, nth_error_app2 by lia; now rewrite Nat.sub_diag).
  unfold metric_fit. rewrite EB. cbn [fst snd]. rewrite (epochs_spec info (metric_ids cbs) (Some (length m1), true) (Some i) es) by eauto. cbn [bind].
  eexists _, _, (combine (map (fun k => INR (nb * k)) (seq 1 (length es))) (map (fun e : xr * (nat -> xr) => snd e i) es)). split; [reflexivity|].
  split; [|split].
  - unfold metric_curve. cbn [l_val l_pick l_mets fst]. rewrite map_length. replace (1 <? length es)%nat with true by (symmetry; now apply Nat.ltb_lt).
    destruct (Nat.eqb_spec nb 0); [lia|]. unfold pick_at. rewrite (nth_cols _ _ _ _ Hk). cbn [bind]. rewrite curve_ok by (now rewrite !map_length, seq_length). reflexivity.
  - rewrite combine_length, !map_length, seq_length. lia.
  - intros e x Hx. assert (e < length es)%nat by (apply nth_error_Some; congruence). exists (INR (nb * S e)). apply nth_combine_some.
    + rewrite nth_error_map, seq_nth_some by assumption. reflexivity.
    + rewrite nth_error_map, Hx. reflexivity.
Qed.
Print Assumptions C104_metric.
(* Not so: that the axis of the metric, labelled "Epoch", has the epochs.  With two batches in an epoch the value of the first epoch is at 2 and that of the second at 4. *)
Theorem C104_metric_axis_refuted :
  exists info cbs fl es fl' g pts, leader fl cbs 0 /\ In SLogger cbs /\ metric_fit info cbs fl es = Ok (fl', g) /\ metric_curve 2 g = Ok (Some pts) /\
    map fst pts = [2; 4] /\ length es = 2%nat.
Proof.
  exists (fun _ => Metric "m"%string true), [SMetric 0; SLogger], (fun _ => true), [(Fin 1, fun _ => Fin 5); (Fin 2, fun _ => Fin 6)].
  do 3 eexists. split; [exists [], [SLogger]; split; [reflexivity|split; [reflexivity|intros j []]]|]. split; [right; now left|]. split; [vm_compute; reflexivity|].
  split; [unfold metric_curve; cbn; reflexivity|]. cbn. split; [|reflexivity]. repeat f_equal; lra.
Qed.
Print Assumptions C104_metric_axis_refuted.

(* get_loss_history: the losses, and after training the values of each metric under its name, if the names are different. *)
Theorem C104_history :
  forall info cbs fl es fl' g t, NoDup (map (fun i => mt_name (info i)) (metric_ids cbs)) -> metric_fit info cbs fl es = Ok (fl', g) ->
  loss_history info (metric_ids cbs) true t g = ((g_trn t, g_val t), map (fun i => (mt_name (info i), map (fun e => snd e i) es)) (metric_ids cbs)) /\
  loss_history info (metric_ids cbs) false t g = ((g_trn t, g_val t), []).
Proof.
  intros info cbs fl es fl' g t ND H. unfold metric_fit in H. destruct (foldM _ _ _) as [g'|] eqn:Ef; [|discriminate]. injection H as _ <-.
  assert (Hc : l_mets g' = cols (metric_ids cbs) es).
  { change (map (fun _ : nat => []) (metric_ids cbs)) with (cols (metric_ids cbs) []) in Ef. set (ms := metric_ids cbs) in *. clearbody ms. clear ND.
    assert (G : forall es1 es0 g0, l_mets g0 = cols ms es0 -> foldM (metric_epoch info ms) es1 g0 = Ok g' -> l_mets g' = cols ms (es0 ++ es1)).
    { induction es1 as [|e es1 IH]; intros es0 g0 H0 Hf; [cbn in Hf; injection Hf as <-; now rewrite app_nil_r|]. cbn [foldM] in Hf.
      destruct (metric_epoch info ms g0 e) as [g1|] eqn:E1; [|discriminate]. cbn [bind] in Hf. replace (es0 ++ e :: es1) with ((es0 ++ [e]) ++ es1) by now rewrite <- app_assoc.
      apply (IH _ g1); [|exact Hf]. unfold metric_epoch in E1. match type of E1 with bind ?x _ = _ => destruct x; [|discriminate] end. cbn [bind] in E1. injection E1 as <-. cbn [l_mets].
      rewrite H0. apply append_cols. }
    refine (G es [] _ _ Ef). reflexivity. }
  split; unfold loss_history; rewrite Hc; f_equal; [|now destruct (cols (metric_ids cbs) es)].
  generalize ND. generalize (metric_ids cbs) as ms. clear. intros ms ND.
  assert (G : forall d, (forall i x, In i ms -> In x d -> fst x <> mt_name (info i)) ->
    fold_left (fun d vc => dict_put (mt_name (info (snd vc))) (fst vc) d) (combine (cols ms es) ms) d = d ++ map (fun i => (mt_name (info i), map (fun e => snd e i) es)) ms).
  { induction ms as [|i ms IH]; intros d Hd; [now rewrite app_nil_r|]. cbn [cols map combine fold_left fst snd]. fold (cols ms es). inversion ND as [|? ? N1 N2]; subst.
    assert (Hp : forall v, dict_put (mt_name (info i)) v d = d ++ [(mt_name (info i), v)]).
    { intros v. assert (Hd' : forall x, In x d -> fst x <> mt_name (info i)) by (intros x Hx; apply (Hd i); [now left|exact Hx]). clear - Hd'.
      induction d as [|[k w] d IHd]; [reflexivity|]. cbn [dict_put]. destruct (String.eqb_spec k (mt_name (info i))) as [E|E]; [exfalso; apply (Hd' (k, w)); [now left|exact E]|].
      rewrite IHd; [reflexivity|]. intros x Hx. apply Hd'. now right. }
    rewrite Hp, (IH N2); [now rewrite <- app_assoc|]. intros j x Hj Hx. apply in_app_or in Hx as [Hx|[<-|[]]]; [apply Hd; [now right|exact Hx]|]. cbn. intros E. apply N1. rewrite E.
    now apply in_map with (f := fun i => mt_name (info i)). }
  now rewrite G.
Qed.
Print Assumptions C104_history.
(* Not so: that the current history is complete at any time.  Two metrics of one name leave one; during training there are none. *)
Theorem C104_history_refuted :
  exists info cbs fl es fl' g t, metric_fit info cbs fl es = Ok (fl', g) /\ length (metric_ids cbs) = 2%nat /\ length es = 1%nat /\
    snd (loss_history info (metric_ids cbs) true t g) = [("m"%string, [Fin 6])] /\ snd (loss_history info (metric_ids cbs) false t g) = [].
Proof.
  exists (fun _ => Metric "m"%string true), [SMetric 0; SMetric 1; SLogger], (fun _ => false), [(Fin 1, fun i => Fin (match i with O => 5 | _ => 6 end))].
  do 2 eexists. exists log0. split; [vm_compute; reflexivity|]. repeat split; vm_compute; reflexivity.
Qed.
Print Assumptions C104_history_refuted.

(* the cells of a plot *)
Definition covers (a : area) (r c : nat) : Prop := (fst (ar_rows a) <= r < snd (ar_rows a))%nat /\ (fst (ar_cols a) <= c < snd (ar_cols a))%nat.
Definition apart (l : list area) : Prop := forall i j a b r c, nth_error l i = Some a -> nth_error l j = Some b -> covers a r c -> covers b r c -> i = j.
Definition fills (grid : nat * nat) (l : list area) : Prop :=
  (forall a r c, In a l -> covers a r c -> (r < fst grid)%nat /\ (c < snd grid)%nat) /\ (forall r, (r < fst grid)%nat -> exists a c, In a l /\ covers a r c).
Ltac places i := let k := fresh in repeat (destruct i as [|i]; [cbn [nth_error]|]); cbn [nth_error]; try (destruct i; discriminate).
Lemma apart_ok l : forallb (fun p => forallb (fun q => (Nat.eqb (fst p) (fst q)) || negb
    (((Nat.max (fst (ar_rows (snd p))) (fst (ar_rows (snd q))) <? Nat.min (snd (ar_rows (snd p))) (snd (ar_rows (snd q))))%nat) &&
     ((Nat.max (fst (ar_cols (snd p))) (fst (ar_cols (snd q))) <? Nat.min (snd (ar_cols (snd p))) (snd (ar_cols (snd q))))%nat))) (combine (seq 0 (length l)) l)) (combine (seq 0 (length l)) l) = true -> apart l.
Proof.
  intros H i j a b r c Hi Hj [A1 A2] [B1 B2]. rewrite forallb_forall in H.
  assert (N : forall k x, nth_error l k = Some x -> In (k, x) (combine (seq 0 (length l)) l)).
  { intros k x Hk. apply (nth_error_In _ k). apply nth_combine_some; [|exact Hk]. rewrite seq_nth_some; [reflexivity|]. apply nth_error_Some. congruence. }
  specialize (H _ (N i a Hi)). rewrite forallb_forall in H. specialize (H _ (N j b Hj)). cbn [fst snd] in H. apply Bool.orb_prop in H as [H|H]; [now apply Nat.eqb_eq|].
  apply Bool.negb_true_iff, Bool.andb_false_iff in H as [H|H]; apply Nat.ltb_ge in H; lia.
Qed.
(* Without metrics the plots of both loggers have places of their own in the grid. *)
Theorem C104_layout :
  (exists l, prep_plots false = Ok l /\ apart l /\ fills (grid_of false) l) /\
  (forall sigmoid, exists l, panel_plots false sigmoid = Ok l /\ apart l /\ fills (panel_grid false sigmoid) l /\ length l = (if sigmoid then 9 else 8)%nat).
Proof.
  assert (In_dec : forall (l : list area) r, existsb (fun a => (fst (ar_rows a) <=? r)%nat && (r <? snd (ar_rows a))%nat && (fst (ar_cols a) <? snd (ar_cols a))%nat) l = true -> exists a c, In a l /\ covers a r c).
  { intros l r H. apply existsb_exists in H as (a & Ha & H). apply Bool.andb_true_iff in H as [H H3]. apply Bool.andb_true_iff in H as [H1 H2].
    apply Nat.leb_le in H1. apply Nat.ltb_lt in H2, H3. exists a, (fst (ar_cols a)). unfold covers. repeat split; auto. }
  split; [|intros []]; eexists; (split; [vm_compute; reflexivity|]); (split; [apply apart_ok; vm_compute; reflexivity|]).
  - split; [intros a r c Ha [A B]; repeat (destruct Ha as [<-|Ha]; [cbn in A, B |- *; lia|]); destruct Ha|].
    intros r Hr. cbn in Hr. apply In_dec. do 4 (destruct r as [|r]; [reflexivity|]). lia.
  - split; [|reflexivity]. split; [intros a r c Ha [A B]; repeat (destruct Ha as [<-|Ha]; [cbn in A, B |- *; lia|]); destruct Ha|].
    intros r Hr. cbn in Hr. apply In_dec. do 6 (destruct r as [|r]; [reflexivity|]). lia.
  - split; [|reflexivity]. split; [intros a r c Ha [A B]; repeat (destruct Ha as [<-|Ha]; [cbn in A, B |- *; lia|]); destruct Ha|].
    intros r Hr. cbn in Hr. apply In_dec. do 6 (destruct r as [|r]; [reflexivity|]). lia.
Qed.
Print Assumptions C104_layout.
(* Not so with metrics: the grid has one row less instead of one more.  MetricLogger cannot be set up; in PanelMetricLogger plots lie over each other. *)
Theorem C104_layout_refuted :
  exists metric, prep_plots metric = Err IndexError /\
    forall sigmoid, exists l, panel_plots metric sigmoid = Ok l /\ ~ apart l.
Proof.
  exists true. split; [vm_compute; reflexivity|]. intros []; eexists; (split; [vm_compute; reflexivity|]); intros H;
    specialize (H 1%nat 3%nat _ _ 3%nat 0%nat eq_refl eq_refl); unfold covers in H; cbn in H; specialize (H ltac:(lia) ltac:(lia)); discriminate.
Qed.
Print Assumptions C104_layout_refuted.

(* The gif: after a fit that ends normally it has a frame for the start of each epoch and one for the end, and is as long as asked for; if plots are not shown there is none. *)
Theorem C104_gif :
  forall W I P (E : env W I P) show len h c1 c2 n bs n_mu mu_bs validate o w s cbs' a' tr,
  tame E (c1 ++ c2) -> ~ In h c1 -> ~ In h c2 -> (0 < bs)%nat ->
  fit (with_obs (shots_cb show len) E h) n bs n_mu mu_bs validate (c1 ++ h :: c2) (Wrapper o (w, s)) = (Ok cbs', a', tr) ->
  exists xs, tr = doc_fit (Cfg (c1 ++ h :: c2) bs n_mu mu_bs) xs /\
  if show then exists frames each, sh_gif (snd (w_w a')) = Some (frames, each) /\ length frames = S (length xs) /\ NoDup frames /\ INR (length frames) * each = len /\
                 sh_files (snd (w_w a')) = sh_files s ++ frames
  else sh_gif (snd (w_w a')) = sh_gif s /\ sh_files (snd (w_w a')) = sh_files s.
Proof.
  intros W I P E show len h c1 c2 n bs n_mu mu_bs validate o w s cbs' a' tr HT N1 N2 Hb H.
  destruct (obs_fit (shots_cb show len) gif_wants (shots_idle show len) gif_coarse E h c1 c2 HT N1 N2 _ _ _ _ _ _ _ _ _ _ _ Hb H) as (xs & t & T1 & _ & _ & HV).
  exists xs. split; [exact T1|]. destruct (HV (fun _ => 0%nat)) as (l & F & R).
  destruct show.
  - change (once gif_wants SetWrapper o0) with (@nil seen) in F. change (once gif_wants TrainBegin o0) with [Seen TrainBegin false 0 0] in F.
    change (once gif_wants TrainEnd (Wt t (length xs) (list_sum (map steps_in xs)) [])) with [Seen TrainEnd t (length xs) (list_sum (map steps_in xs))] in F.
    cbn [app] in F. inversion F as [|[[ev f] v] sn l0 m S1 F1]; subst l sn m. apply Forall2_app_inv_r in F1 as (l1 & l2 & F1 & F2 & ->).
    inversion F2 as [|[[ev2 f2] wl] sn l3 m S2 F3]; subst l2 sn m. inversion F3; subst l3.
    destruct S1 as [S1 _]. cbn in S1. subst ev. destruct S2 as [S2 _]. cbn [n_ev] in S2. subst ev2.
    cbn [replay shots_cb] in R. rewrite replay_app in R. destruct (replay _ l1 _) as [[[]|y] s1] eqn:E1; [|discriminate].
    apply (replay_shots true len (saw E c1 c2 (fun _ => 0%nat) 0) (fun e f v n A => conj (proj1 A) (proj1 (proj2 A))) xs 0 0 l1 (Shots [] (sh_files s) (sh_gif s)) s1 0%nat (fun A => Bool.diff_true_false A) F1 eq_refl) in E1 as (B1 & B2 & B3).
    cbn [plus sh_files sh_gif] in B1, B2, B3. cbn [replay shots_cb] in R. unfold log_gif, snapshot in R. cbn [sh_buffer sh_files sh_gif] in R.
    rewrite B1, B2, seq_length in R. rewrite <- app_assoc in R. change (seq 0 (length xs) ++ [length xs]) with (seq 0 (length xs) ++ [(0 + length xs)%nat]) in R. rewrite <- seq_S in R.
    rewrite seq_length in R. cbn [Nat.eqb] in R. destruct (forallb _ _); [|discriminate]. injection R as <-. cbn [sh_gif sh_files].
    exists (seq 0 (S (length xs))), (len / INR (S (length xs))). rewrite seq_length. repeat split; [apply seq_NoDup|]. field. apply not_0_INR. discriminate.
  - clear F HV. assert (G : forall l s0 s1, replay (@shots_cb W P false len) l s0 = (Ok tt, s1) -> sh_gif s1 = sh_gif s0 /\ sh_files s1 = sh_files s0).
    { clear. induction l as [|[[e f] v] l IH]; intros s0 s1 H; [injection H as <-; auto|]. cbn [replay] in H.
      assert (K : exists s2, shots_cb false len e f v s0 = (Ok tt, s2) /\ sh_gif s2 = sh_gif s0 /\ sh_files s2 = sh_files s0) by (destruct e; cbn; eauto).
      destruct K as (s2 & K1 & K2 & K3). rewrite K1 in H. apply IH in H as [A B]. split; congruence. }
    exact (G _ _ _ R).
Qed.
Print Assumptions C104_gif.
Example C104_gif_case :
  let '(r, a, tr) := fit (with_obs (shots_cb true 10) (upd_env quiet_cb 5 3) 1) 3 2 10 5 true [0; 1; 2]%nat (Wrapper None (10%nat, Shots [] [] None)) in
  r = Ok [0; 1; 2]%nat /\ sh_buffer (snd (w_w a)) = [0; 1; 2; 3]%nat /\ match sh_gif (snd (w_w a)) with Some (f, _) => f = [0; 1; 2; 3]%nat | None => False end.
Proof. vm_compute. auto. Qed.
(* Not so: that the temporary pictures are gone afterwards; they are never removed. *)
Theorem C104_files_refuted :
  exists (E : env nat nat nat) w cbs' a tr,
  tame E [0%nat; 2%nat] /\ fit (with_obs (shots_cb true 10) E 1) 3 2 10 5 true [0; 1; 2]%nat (Wrapper None (w, Shots [] [] None)) = (Ok cbs', a, tr) /\
  sh_files (snd (w_w a)) = [0; 1; 2; 3]%nat.
Proof.
  exists (upd_env quiet_cb 5 3), 0%nat.
  destruct (fit (with_obs (shots_cb true 10) (upd_env quiet_cb 5 3) 1) 3 2 10 5 true [0; 1; 2]%nat (Wrapper None (0%nat, Shots [] [] None))) as [[r a] tr] eqn:E.
  assert (K : let '(r, a, tr) := fit (with_obs (shots_cb true 10) (upd_env quiet_cb 5 3) 1) 3 2 10 5 true [0; 1; 2]%nat (Wrapper None (0%nat, Shots [] [] None)) in
              r = Ok [0; 1; 2]%nat /\ sh_files (snd (w_w a)) = [0; 1; 2; 3]%nat) by (vm_compute; auto).
  rewrite E in K. destruct K as [-> K]. exists [0; 1; 2]%nat, a, tr. split; [apply upd_tame|]. split; [reflexivity|exact K].
Qed.
Print Assumptions C104_files_refuted.
