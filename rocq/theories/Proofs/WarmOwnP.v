(* Proofs for C90 and C91. *)
From Coq Require Import Reals Lra Lia List Bool String Permutation Sorted.
From Verif Require Import Base.RUtil Base.XR Model.Fit Model.Warmup Model.WarmOwn Spec.FitSpec Spec.ReplaySpec Spec.WarmupSpec Spec.WarmOwnSpec Proofs.FitP Proofs.ReplayP Proofs.WarmupP Proofs.PostP Base.XR.
Import ListNotations.
Open Scope list_scope.
Open Scope nat_scope.

(* ---- medians ---- *)
Notation leq := (fun x y => xle x y = true).
Lemma insert_perm x l : Permutation (x :: l) (insert_x x l).
Proof.
  induction l as [|y l IH]; cbn [insert_x]; [reflexivity|]. destruct (xle x y); [reflexivity|].
  rewrite perm_swap. now constructor.
Qed.
Lemma sort_perm l : Permutation l (sort_x l).
Proof. induction l as [|x l IH]; [reflexivity|]. cbn [sort_x fold_right]. rewrite <- insert_perm. now constructor. Qed.
Lemma xle_trans a b d : xle a b = true -> xle b d = true -> xle a d = true.
Proof. destruct a, b, d; cbn; try discriminate; auto. intros H1 H2. apply Rleb_true in H1. apply Rleb_true in H2. apply Rleb_true. lra. Qed.
Lemma xle_total a b : a <> NaN -> b <> NaN -> xle a b = false -> xle b a = true.
Proof. destruct a, b; cbn; try congruence. intros _ _ H. apply Rleb_true. destruct (Rleb_spec r r0); [congruence|lra]. Qed.
Lemma insert_sorted x l : x <> NaN -> no_nan l -> StronglySorted leq l -> StronglySorted leq (insert_x x l).
Proof.
  intros Hx. induction l as [|y l IH]; intros N H; cbn [insert_x]; [repeat constructor|]. inversion H as [|? ? H1 H2]; subst.
  destruct (xle x y) eqn:E.
  - constructor; [exact H|]. constructor; [exact E|]. eapply Forall_impl; [|exact H2]. intros z Hz. cbv beta in Hz. eapply xle_trans; eauto.
  - constructor.
    + apply IH; [|exact H1]. intro X. apply N. now right.
    + apply Forall_forall. intros z Hz. apply (Permutation_in _ (Permutation_sym (insert_perm x l))) in Hz. destruct Hz as [<-|Hz].
      * apply xle_total; auto. intros ->. apply N. now left.
      * rewrite Forall_forall in H2. now apply H2.
Qed.
Lemma sort_sorted l : no_nan l -> StronglySorted leq (sort_x l).
Proof.
  induction l as [|x l IH]; intro N; [constructor|]. cbn [sort_x fold_right]. assert (no_nan l) by (intro X; apply N; now right).
  apply insert_sorted; [intros ->; apply N; now left| |auto].
  intro X. apply (Permutation_in _ (Permutation_sym (sort_perm l))) in X. auto.
Qed.
Lemma nan_in l : existsb xisnan l = true <-> In NaN l.
Proof.
  rewrite existsb_exists. split; [intros (x & H & E); destruct x; try discriminate; exact H|]. intro H. exists NaN. auto.
Qed.
Lemma split_nth {A} (l : list A) k d : k < length l -> l = firstn k l ++ nth k l d :: skipn (S k) l.
Proof.
  revert k. induction l as [|x l IH]; intros [|k] H; cbn in *; try lia; [reflexivity|]. f_equal. apply IH. lia.
Qed.
Lemma median_spec l : median_of (np_median l) l.
Proof.
  split.
  - intros Hl N. exists (sort_x l). split; [apply sort_perm|]. split; [now apply sort_sorted|].
    pose proof (Permutation_length (sort_perm l)) as Hs. unfold np_median. destruct (existsb xisnan l) eqn:E; [apply nan_in in E; contradiction|]. cbn [orb].
    destruct (Nat.eqb_spec (length l) 0) as [Z|Z]; [destruct l; [congruence|discriminate]|].
    pose proof (Nat.div_mod_eq (length l) 2) as D. rewrite <- Nat.bit0_mod, Nat.bit0_odd in D.
    destruct (Nat.odd (length l)) eqn:O; cbn [Nat.b2n] in D.
    + left. set (k := length l / 2) in *. exists (firstn k (sort_x l)), (skipn (S k) (sort_x l)). split; [apply split_nth; lia|].
      rewrite firstn_length, skipn_length. lia.
    + right. set (k := length l / 2) in *. assert (0 < k) by lia. exists (firstn (k - 1) (sort_x l)), (nth (k - 1) (sort_x l) NaN), (nth k (sort_x l) NaN), (skipn (S k) (sort_x l)).
      split; [|split; [rewrite firstn_length, skipn_length; lia|reflexivity]].
      rewrite (split_nth (sort_x l) (k - 1) NaN) at 1 by lia. f_equal. f_equal. replace (S (k - 1)) with k by lia.
      assert (H' : 0 < length (skipn k (sort_x l))) by (rewrite skipn_length; lia).
      rewrite (split_nth _ 0 NaN H') at 1. cbn [firstn app]. f_equal.
      * clearbody k. clear. revert k. induction (sort_x l) as [|x s IH]; intros [|k]; cbn; auto.
      * clearbody k. clear. revert k. induction (sort_x l) as [|x s IH]; intros [|k]; try reflexivity. apply IH.
  - intros [-> | H]; [reflexivity|]. unfold np_median. apply nan_in in H. now rewrite H.
Qed.

(* ---- a fit, with the own code of one warm-up callback ---- *)
Section Run.
Context {I P O : Type}.
Variables (l0 : list slot) (c : cfg) (ne bs : option nat) (q len cnt0 : nat) (on0 : bool).
Hypothesis Hc : c_cbs c = places l0.
Hypothesis Hq : nth_error l0 q = Some (SWarm len cnt0 on0).
Variable feed : item I P -> O -> O.
Variable own : own_warm O.
Notation run := (@warm_run I P O q feed own).
Notation replayw := (@replay I P (list slot) warm_cb).
Notation items := (list (item I P)).

Lemma run_app (l m : items) s : run (l ++ m) s = bind (run l s) (run m).
Proof. unfold warm_run. revert s. induction l as [|i l IH]; intro s; [reflexivity|]. cbn [app foldM]. destruct (warm_step q feed own i s); cbn [bind]; [apply IH|reflexivity]. Qed.
Lemma run_cons (i : item I P) l s : run (i :: l) s = bind (warm_step q feed own i s) (run l).
Proof. reflexivity. Qed.
(* the callbacks other than q *)
Lemma run_others e ks v o : ~ In q ks -> run (map (fun k => Call k e) ks) (v, o) = Ok (@calls I P _ warm_cb e ks v, o).
Proof.
  revert v. induction ks as [|k ks IH]; intros v H; [reflexivity|]. cbn [map]. rewrite run_cons. cbn [warm_step]. rewrite calls_cons. cbn [replay1].
  destruct (warm_ok k e v) as (b & l & E). rewrite E. cbn [bind]. destruct (Nat.eqb_spec k q) as [->|N]; [exfalso; apply H; now left|].
  cbn [bind]. apply IH. intro X. apply H. now right.
Qed.
Definition slot_q (v : view (list slot)) : option slot := nth_error (vw_st v) q.
Lemma q_in : q < length l0. Proof. apply nth_error_Some. congruence. Qed.
Lemma places_split : places l0 = seq 0 q ++ [q] ++ seq (S q) (length l0 - S q).
Proof.
  pose proof q_in. unfold places. replace (length l0) with (q + (1 + (length l0 - S q))) at 1 by lia. rewrite !seq_app. cbn [seq plus app]. now rewrite Nat.add_1_r.
Qed.
Lemma calls_app e ks ks' v : @calls I P _ warm_cb e (ks ++ ks') v = @calls I P _ warm_cb e ks' (@calls I P _ warm_cb e ks v).
Proof. unfold calls. now rewrite map_app, replay_app'. Qed.
Lemma run_on e v o : run (on c e : items) (v, o) =
  let v1 := @calls I P _ warm_cb e (seq 0 q) v in let v2 := @calls I P _ warm_cb e [q] v1 in
  match slot_q v1, slot_q v2 with
  | Some s, Some s' => o' <- own e s s' (in_train v1) o ;; Ok (replayw v (on c e), o')
  | _, _ => Ok (replayw v (on c e), o)
  end.
Proof.
  cbv zeta. rewrite (replay_on l0 c Hc). unfold on. rewrite Hc, places_split, !map_app, run_app, run_others by (rewrite in_seq; lia).
  cbn [bind]. set (v1 := calls warm_cb e (seq 0 q) v). rewrite run_app. cbn [map]. rewrite run_cons. cbn [warm_step].
  rewrite !calls_app. fold v1. cbn [app].
  assert (E1 : @calls I P _ warm_cb e [q] v1 = replay1 warm_cb v1 (Call q e : item I P)) by reflexivity. rewrite E1. cbn [replay1].
  destruct (warm_ok q e v1) as (b & l & E). rewrite E. cbn [bind]. rewrite Nat.eqb_refl. unfold slot_q. cbn [vw_st].
  destruct (nth_error (vw_st v1) q) as [s|]; [destruct (nth_error l q) as [s'|]|].
  - destruct (own e s s' (in_train v1) o) as [o'|x]; cbn [bind]; [|reflexivity]. cbn [warm_run foldM bind]. rewrite run_others; [reflexivity|]. rewrite in_seq. lia.
  - cbn [bind warm_run foldM]. rewrite run_others; [reflexivity|]. rewrite in_seq. lia.
  - cbn [bind warm_run foldM]. rewrite run_others; [reflexivity|]. rewrite in_seq. lia.
Qed.
(* events in a scan *)
Definition scan_step (s : slot) (t : bool) (i : item I P) (o : O) : res O :=
  match i with Call k e => if Nat.eqb k q then own e s s t o else Ok o | _ => Ok (feed i o) end.
Definition scan_run (s : slot) (t : bool) (l : items) (o : O) : res O := foldM (fun o i => scan_step s t i o) l o.
Lemma scan_app s t (l m : items) o : scan_run s t (l ++ m) o = bind (scan_run s t l o) (scan_run s t m).
Proof. unfold scan_run. revert o. induction l as [|i l IH]; intro o; [reflexivity|]. cbn [app foldM]. destruct (scan_step s t i o); cbn [bind]; [apply IH|reflexivity]. Qed.
Lemma run_scan s v (l : items) o : Forall scan_item l -> slot_q v = Some s -> run l (v, o) = rmap (pair v) (scan_run s (in_train v) l o).
Proof.
  intros F Hs. unfold scan_run, warm_run. revert o. induction F as [|i l Hi F IH]; intro o; [reflexivity|]. cbn [foldM].
  destruct i; cbn [scan_item] in Hi; try contradiction; cbn [warm_step scan_step bind]; try apply IH.
  rewrite (warm_idle _ _ _ Hi). unfold same_as. cbn [bind]. rewrite view_same. destruct (Nat.eqb cb q); [|apply IH].
  unfold slot_q in Hs. rewrite Hs. destruct (own e s s (in_train v) o); cbn [bind rmap]; [apply IH|reflexivity].
Qed.
(* the calls of one event in a scan *)
Lemma scan_on e s t o : scan_run s t (on c e : items) o = own e s s t o.
Proof.
  unfold on. rewrite Hc, places_split, !map_app.
  assert (N : forall ks o, ~ In q ks -> scan_run s t (map (fun k => Call k e) ks) o = Ok o).
  { induction ks as [|k ks IH]; intros o' H; [reflexivity|]. cbn [map scan_run foldM scan_step]. destruct (Nat.eqb_spec k q) as [->|X]; [exfalso; apply H; now left|]. cbn [bind]. apply IH. intro Y. apply H. now right. }
  rewrite scan_app, N by (rewrite in_seq; lia). cbn [bind map]. rewrite scan_app. cbn [scan_run foldM scan_step]. rewrite Nat.eqb_refl.
  destruct (own e s s t o) as [o'|]; cbn [bind]; [|reflexivity]. apply N. rewrite in_seq. lia.
Qed.
Lemma scan_cons s t (i : item I P) l o : scan_run s t (i :: l) o = bind (scan_step s t i o) (scan_run s t l).
Proof. reflexivity. Qed.

(* which events the own code reacts to *)
Hypothesis own_idle : forall e s s' t o, e = SetWrapper \/ e = EpochBegin \/ e = TrainEnd -> own e s s' t o = Ok o.
Hypothesis own_valid : forall s s' o, own EpochEnd s s' false o = Ok o.
Hypothesis feed_mode : forall o, feed SetTrain o = o /\ feed SetEval o = o.
Lemma run_idle e v o : e = SetWrapper \/ e = EpochBegin \/ e = TrainEnd -> run (on c e : items) (v, o) = Ok (replayw v (on c e), o).
Proof. intro H. rewrite run_on. cbv zeta. destruct (slot_q _); [|reflexivity]. destruct (slot_q _); [|reflexivity]. now rewrite own_idle. Qed.
Lemma set_at_other k x l j : k <> j -> nth_error (set_at k x l) j = nth_error l j.
Proof. revert k j. induction l as [|y l IH]; intros [|k] [|j] H; cbn; auto; congruence. Qed.
Lemma set_at_same k x l : k < length l -> nth_error (set_at k x l) k = Some x.
Proof. revert k. induction l as [|y l IH]; intros [|k] H; cbn in *; auto; try lia. apply IH. lia. Qed.
Lemma end_others ks v : ~ In q ks -> slot_q (@calls I P _ warm_cb EpochEnd ks v) = slot_q v /\ in_train (@calls I P _ warm_cb EpochEnd ks v) = in_train v.
Proof.
  revert v. induction ks as [|k ks IH]; intros v H; [now split|]. rewrite calls_cons. assert (N : ~ In q ks) by (intro X; apply H; now right).
  destruct (IH (replay1 warm_cb v (Call k EpochEnd : item I P)) N) as [A B]. rewrite A, B.
  assert (k <> q) by (intros ->; apply H; now left). cbn [replay1]. rewrite warm_cb_eq. cbv zeta. unfold slot_q.
  destruct (nth_error (vw_st v) k) as [[n x []|[]|]|]; cbn [same_as]; try (split; reflexivity).
  destruct (in_train v) eqn:T; cbn [same_as vw_st]; unfold in_train in *; cbn [vw_mode]; [|split; [reflexivity|exact T]]. split; [now apply set_at_other|exact T].
Qed.
Lemma run_end_train v o n x b : in_train v = true -> slot_q v = Some (SWarm n x b) ->
  run (on c EpochEnd : items) (v, o) = rmap (pair (replayw v (on c EpochEnd))) (own EpochEnd (SWarm n x b) (SWarm n (if b then S x else x) b) true o).
Proof.
  intros T Hs. rewrite run_on. cbv zeta. destruct (end_others (seq 0 q) v) as [A B]; [rewrite in_seq; lia|].
  set (v1 := calls warm_cb EpochEnd (seq 0 q) v) in *. rewrite A, B, T, Hs. 
  assert (E1 : @calls I P _ warm_cb EpochEnd [q] v1 = replay1 warm_cb v1 (Call q EpochEnd : item I P)) by reflexivity. rewrite E1. cbn [replay1].
  rewrite warm_cb_eq. cbv zeta. rewrite Hs in A. unfold slot_q in A. rewrite A. rewrite B, T.
  assert (L : q < length (vw_st v1)) by (apply nth_error_Some; congruence).
  destruct b; unfold slot_q; cbn [same_as vw_st]; [rewrite set_at_same by exact L|rewrite A]; destruct (own _ _ _ _ _); reflexivity.
Qed.
Lemma run_end_valid v o : in_train v = false -> run (on c EpochEnd : items) (v, o) = Ok (replayw v (on c EpochEnd), o).
Proof.
  intro T. rewrite run_on. cbv zeta. destruct (end_others (seq 0 q) v) as [A B]; [rewrite in_seq; lia|]. rewrite B, T. clear A B.
  destruct (slot_q _); [|reflexivity]. destruct (slot_q _); [|reflexivity]. now rewrite own_valid.
Qed.

(* the window *)
Definition act i := ((start l0 q <=? i) && (i <? start l0 q + len))%bool.
Definition slot_at i := SWarm len (Nat.min len (i - start l0 q)) (act i).
(* after the training part of epoch i *)
Definition slot_end i := SWarm len (if act i then S (Nat.min len (i - start l0 q)) else Nat.min len (i - start l0 q)) (act i).

Variable xs : list (epoch I P).
Variable Q : nat -> O -> Prop.     (* after i epochs *)
Hypothesis epoch_own : forall i x o, nth_error xs i = Some x -> Q i o -> 
  exists o1 o2, scan_run (slot_at i) true (doc_scan c true (ep_skip x) (ep_train x)) o = Ok o1 /\ own EpochEnd (slot_at i) (slot_end i) true o1 = Ok o2 /\
    match ep_valid x with
    | Some s => forall sl, exists o3, scan_run sl false (doc_scan c false (ep_skip x) s) o2 = Ok o3 /\ Q (S i) o3
    | None => Q (S i) o2 end.

Lemma start_slot i v : at_start l0 ne bs i v -> exists sl, slot_q v = Some sl.
Proof.
  intros (s & p & md & -> & _). unfold slot_q. cbn [vw_st]. match goal with |- exists _, ?x = _ => destruct x as [sl|] eqn:E end; [eauto|].
  apply nth_error_None in E. rewrite build_len in E. pose proof q_in. lia.
Qed.
Lemma run_epoch i x v o : nth_error xs i = Some x -> at_start l0 ne bs i v -> Q i o ->
  exists v' o', run (doc_epoch c x) (v, o) = Ok (v', o') /\ v' = replayw v (doc_epoch c x) /\ at_start l0 ne bs (S i) v' /\ Q (S i) o'.
Proof.
  intros Hx Hv HQ. destruct (epoch_own i x o Hx HQ) as (o1 & o2 & S1 & S2 & S3).
  assert (G : exists o', run (doc_epoch c x) (v, o) = Ok (replayw v (doc_epoch c x), o') /\ Q (S i) o').
  2: { destruct G as (o' & G1 & G2). exists (replayw v (doc_epoch c x)), o'. split; [exact G1|]. split; [reflexivity|]. split; [now apply epoch_steps_on|exact G2]. }
  unfold doc_epoch, doc_run. rewrite !replay_app'. rewrite run_app. cbn [app warm_run foldM warm_step bind]. rewrite (proj1 (feed_mode o)).
  change (foldM (fun s i => warm_step q feed own i s)) with run.
  pose proof (@begin_inside I P l0 c ne bs Hc i v Hv) as HI. rewrite replay_app' in HI.
  change (View (Some Train) (S (vw_epoch v)) (vw_skip v) (vw_n_epochs v) (vw_bs v) (vw_st v)) with (replayw v [SetTrain : item I P]).
  set (v1 := replayw v [SetTrain : item I P]) in *. rewrite !run_app, (run_idle EpochBegin) by auto. cbn [bind]. set (v2 := replayw v1 (on c EpochBegin)) in *.
  pose proof (inside_warm l0 ne bs i v2 q len cnt0 on0 HI Hq) as Hs. fold (act i) in Hs. fold (slot_at i) in Hs.
  assert (T2 : in_train v2 = true) by (destruct HI as (? & ? & -> & _); reflexivity).
  rewrite run_app, (run_scan _ v2 _ o (si_scan c true (ep_skip x) (ep_train x)) Hs), T2, S1. cbn [rmap bind].
  rewrite (scan_idle c true (ep_skip x) (ep_train x) v2 (doc_scan c true (ep_skip x) (ep_train x))) by (exists []; now rewrite app_nil_r).
  rewrite (run_end_train v2 o1 _ _ _ T2 Hs). fold (slot_at i) (slot_end i). rewrite S2. cbn [rmap bind].
  pose proof (@end_start I P l0 c ne bs Hc i v2 HI) as HE. set (v3 := replayw v2 (on c EpochEnd)) in *.
  destruct (ep_valid x) as [s|]; [|exists o2; split; [reflexivity|exact S3]].
  cbn [app]. rewrite run_cons. cbn [warm_step bind]. rewrite (proj2 (feed_mode o2)).
  change (replayw v3 (SetEval :: ?l)) with (replayw (replayw v3 [SetEval : item I P]) l).
  change (View (Some Valid) (vw_epoch v3) (vw_skip v3) (vw_n_epochs v3) (vw_bs v3) (vw_st v3)) with (replayw v3 [SetEval : item I P]).
  destruct (start_slot (S i) v3 HE) as [sl Hsl]. assert (Hsl4 : slot_q (replayw v3 [SetEval : item I P]) = Some sl) by exact Hsl.
  assert (M4 : vw_mode (replayw v3 [SetEval : item I P]) = Some Valid) by reflexivity. set (v4 := replayw v3 [SetEval : item I P]) in *. 
  destruct (S3 sl) as (o3 & S3a & S3b). rewrite run_app, (run_idle EpochBegin) by auto. cbn [bind]. rewrite !replay_app'.
  assert (E5 : replayw v4 (on c EpochBegin) = v4) by (rewrite (replay_on l0 c Hc); apply calls_same; intros; apply warm_valid; auto). rewrite E5.
  assert (T4 : in_train v4 = false) by (unfold in_train; now rewrite M4).
  rewrite run_app, (run_scan _ v4 _ o2 (si_scan c false (ep_skip x) s) Hsl4), T4, S3a. cbn [rmap bind].
  rewrite (scan_idle c false (ep_skip x) s v4 (doc_scan c false (ep_skip x) s)) by (exists []; now rewrite app_nil_r).
  rewrite (run_end_valid v4 o3 T4). exists o3. auto.
Qed.
Lemma run_fit o o0 : (forall s s' t, own TrainBegin s s' t o = Ok o0) -> Q 0 o0 -> forall i t, epochs_done c xs i t ->
  exists v o', run t (View None 0 false ne bs l0, o) = Ok (v, o') /\ Q i o'.
Proof.
  intros HB H0.
  assert (A : forall i, i <= length xs -> exists v o', run (first_epochs c xs i) (View None 0 false ne bs l0, o) = Ok (v, o') /\ at_start l0 ne bs i v /\ Q i o').
  { induction i as [|i IH]; intro Hi.
    - unfold first_epochs. cbn [firstn flat_map]. rewrite app_nil_r. set (v0 := View None 0 false ne bs l0).
      pose proof (@begin_start I P l0 c ne bs Hc v0 eq_refl) as HS. rewrite run_app, (run_idle SetWrapper) by auto. cbn [bind].
      exists (replayw v0 (on c SetWrapper ++ on c TrainBegin)), o0. split; [|split; [exact HS|exact H0]]. rewrite replay_app' in HS |- *. rewrite run_on. cbv zeta.
      set (v1 := replayw v0 (on c SetWrapper)) in *. destruct (slot_q _) as [s|] eqn:E1.
      + destruct (slot_q (calls warm_cb TrainBegin [q] _)) as [s'|] eqn:E2; [now rewrite HB|]. exfalso.
        revert E1 E2. set (v2 := calls warm_cb TrainBegin (seq 0 q) v1). assert (@calls I P _ warm_cb TrainBegin [q] v2 = replay1 warm_cb v2 (Call q TrainBegin : item I P)) as -> by reflexivity.
        unfold slot_q. intros E1 E2. apply nth_error_None in E2. assert (q < length (vw_st v2)) by (apply nth_error_Some; congruence).
        revert E2. cbn [replay1]. rewrite warm_cb_eq. cbv zeta. assert (SL : forall l, length (fst (switch_on l)) = length l).
        { clear. induction l as [|[n x b|b|] l IH]; cbn; auto; destruct (switch_on l); cbn in *; auto. }
        destruct (nth_error (vw_st v2) q) as [[? ? []|[]|]|]; cbn [same_as vw_st]; rewrite ?SL, ?set_len; lia.
      + exfalso. revert E1. unfold slot_q. intro E1. apply nth_error_None in E1.
        assert (L : forall ks v, length (vw_st (@calls I P _ warm_cb TrainBegin ks v)) = length (vw_st v)).
        { clear. assert (SL : forall l, length (fst (switch_on l)) = length l).
          { induction l as [|[n x b|b|] l IH]; cbn; auto; destruct (switch_on l); cbn in *; auto. }
          induction ks as [|k ks IH]; intro v; [reflexivity|]. rewrite calls_cons, IH. cbn [replay1]. rewrite warm_cb_eq. cbv zeta.
          destruct (nth_error (vw_st v) k) as [[? ? []|[]|]|]; cbn [same_as vw_st]; rewrite ?SL, ?set_len; reflexivity. }
        rewrite L in E1. unfold v1 in E1. rewrite (replay_on l0 c Hc) in E1. rewrite (calls_same warm_cb SetWrapper) in E1.
        2: { intros k. rewrite warm_cb_eq. cbv zeta. destruct (nth_error (vw_st v0) k) as [[? ? []|[]|]|]; reflexivity. }
        cbn [v0 vw_st] in E1. pose proof q_in. lia.
    - destruct IH as (v & o1 & R & HS & HQ); [lia|]. destruct (nth_error xs i) as [x|] eqn:Ex; [|apply nth_error_None in Ex; lia].
      destruct (run_epoch i x v o1 Ex HS HQ) as (v' & o' & R' & _ & HS' & HQ'). exists v', o'. split; [|auto].
      unfold first_epochs in *. rewrite (firstn_snoc xs i x Ex), flat_map_app, !app_assoc. rewrite run_app, <- app_assoc, R. cbn [bind flat_map]. now rewrite app_nil_r. }
  intros i t [[Hi ->]|[-> ->]].
  - destruct (A i Hi) as (v & o' & R & _ & HQ). eauto.
  - destruct (A (length xs) (le_n _)) as (v & o' & R & _ & HQ). unfold first_epochs in R. rewrite firstn_all in R. unfold doc_fit.
    exists (replayw v (on c TrainEnd)), o'. split; [|exact HQ]. rewrite !app_assoc. rewrite run_app, <- app_assoc, R. cbn [bind]. apply run_idle. auto.
Qed.
End Run.
