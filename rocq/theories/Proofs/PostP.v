(* A post-warm-up callback with own code, followed through a fit. *)
From Coq Require Import Lia Bool ZArith.
From Verif Require Import Base.RUtil Model.Fit Model.Warmup Model.Schedules Spec.FitSpec Spec.ReplaySpec Spec.WarmupSpec Proofs.FitP Proofs.FitCount Proofs.ReplayP Proofs.WarmupP.
Open Scope list_scope.
Open Scope nat_scope.

(* only callback q writes the slot q *)
Lemma set_other k q x l : k <> q -> nth_error (set_at k x l) q = nth_error l q.
Proof. revert k q. induction l as [|y l IH]; intros [|k] [|q] H; try reflexivity; try congruence. cbn. apply IH. congruence. Qed.
Lemma set_len k x l : length (set_at k x l) = length l.
Proof. revert k. induction l as [|y l IH]; intros [|k]; cbn; auto. Qed.
Lemma set_same k x l : k < length l -> nth_error (set_at k x l) k = Some x.
Proof. revert k. induction l as [|y l IH]; intros [|k]; cbn; try lia; [reflexivity|]. intros H. apply IH. lia. Qed.
Lemma switch_post l : forall q b, nth_error l q = Some (SPost b) -> nth_error (fst (switch_on l)) q = Some (SPost b).
Proof.
  induction l as [|x l IH]; intros [|q] b; try discriminate.
  - cbn. intros [= ->]. cbn. now destruct (switch_on l).
  - cbn [nth_error]. intros H. specialize (IH q b H). destruct x; cbn [switch_on]; [exact H| |]; destruct (switch_on l); exact IH.
Qed.
Lemma check_post l : forall sk q b, nth_error l q = Some (SPost b) -> nth_error (fst (check_warmups l sk)) q = Some (SPost b).
Proof.
  induction l as [|x l IH]; intros sk [|q] b; try discriminate.
  - cbn. intros [= ->]. cbn. now destruct (check_warmups l sk).
  - cbn [nth_error]. intros H. specialize (IH sk q b H). pose proof (switch_post l q b H) as Hs. destruct x as [n c []|o|]; cbn [check_warmups].
    + destruct (Nat.leb n c); [destruct (switch_on l); exact Hs|]. destruct (check_warmups l sk); exact IH.
    + destruct (check_warmups l sk); exact IH.
    + destruct (check_warmups l sk); exact IH.
    + destruct (check_warmups l sk); exact IH.
Qed.
Lemma warm_other k q e v skip l' b : k <> q -> nth_error (vw_st v) q = Some (SPost b) -> warm_cb k e v = Ok (skip, l') -> nth_error l' q = Some (SPost b).
Proof.
  intros Hk Hq. rewrite warm_cb_eq. cbv zeta. unfold same_as.
  assert (Hset : forall x, nth_error (set_at k x (vw_st v)) q = Some (SPost b)) by (intros; now rewrite set_other).
  destruct (nth_error (vw_st v) k) as [[n c []|[]|]|]; destruct e; try (now intros [= _ <-]);
    repeat match goal with
      | |- (if ?x then _ else _) = _ -> _ => destruct x
      | |- Ok (_, fst (switch_on (set_at _ ?x _))) = _ -> _ => intros [= _ <-]; apply switch_post; apply Hset
      | |- Ok (_, set_at _ ?x _) = _ -> _ => intros [= _ <-]; apply Hset
      | |- Ok (_, vw_st v) = _ -> _ => now intros [= _ <-]
      | |- (let (_, _) := check_warmups ?l ?s in _) = _ -> _ => pose proof (check_post l s q b Hq) as Hc; destruct (check_warmups l s); intros [= _ <-]; exact Hc
      end.
Qed.
Lemma warm_ok k e v : exists skip l', warm_cb k e v = Ok (skip, l').
Proof.
  rewrite warm_cb_eq. cbv zeta. unfold same_as. destruct (nth_error (vw_st v) k) as [[n c []|[]|]|]; destruct e; eauto;
    repeat match goal with |- context [if ?x then _ else _] => destruct x | |- context [let (_, _) := ?x in _] => destruct x end; eauto.
Qed.
Lemma act_post l q b : nth_error l q = Some (SPost b) -> act_of l q = b.
Proof. unfold act_of. now intros ->. Qed.

Section Own.
Context {I P O : Type}.
Variables (q : nat) (own : own_cb O).
Notation V := (view (list slot * O)).
Notation m := (post_cb q own).
Notation items := (list (item I P)).
Hypothesis own_skip : forall e f a v v', vw_mode v = vw_mode v' -> vw_epoch v = vw_epoch v' -> vw_n_epochs v = vw_n_epochs v' -> vw_bs v = vw_bs v' -> vw_st v = vw_st v' ->
  own e f a v = own e f a v'.
Definition slots (v : V) : list slot := fst (vw_st v).
Definition mine (v : V) : O := snd (vw_st v).
Definition pv (v : V) : view (list slot) := with_st v (slots v).
Definition ov (v : V) : view O := with_st v (mine v).
Lemma post_eq k e v : m k e v =
  match warm_cb k e (pv v) with
  | Err x => Err x
  | Ok (skip, l') =>
      if Nat.eqb k q
      then match own e (negb (act_of (slots v) q) && act_of l' q)%bool (act_of l' q) (ov v) with Ok o' => Ok (skip, (l', o')) | Err x => Err x end
      else Ok (skip, (l', mine v))
  end.
Proof. unfold post_cb, pv, ov, slots, mine. destruct (vw_st v) as [l o]. reflexivity. Qed.
Lemma proj1_ v (i : item I P) : quiet1 m v i -> pv (replay1 m v i) = replay1 warm_cb (pv v) i.
Proof.
  destruct i; try reflexivity. cbn [quiet1 replay1]. intros [x Hx]. rewrite Hx. rewrite post_eq in Hx. destruct (warm_cb cb e (pv v)) as [[skip l']|]; [|discriminate].
  destruct (Nat.eqb cb q); [destruct (own _ _ _ _); [|discriminate]|]; injection Hx as <-; reflexivity.
Qed.
Lemma proj t : forall v, quiet m v t -> pv (replay m v t) = replay warm_cb (pv v) (t : items).
Proof.
  induction t as [|i t IH]; intros v; [reflexivity|]. cbn [quiet replay fold_left]. intros [H1 H2]. rewrite <- proj1_ by exact H1. exact (IH _ H2).
Qed.
Definition same_frame (v v' : V) : Prop := vw_mode v' = vw_mode v /\ vw_epoch v' = vw_epoch v /\ vw_n_epochs v' = vw_n_epochs v /\ vw_bs v' = vw_bs v.
Lemma others e ks : ~ In q ks -> forall v b, quiet m v (map (fun k => Call k e) ks : items) -> nth_error (slots v) q = Some (SPost b) ->
  let v' := replay m v (map (fun k => Call k e) ks : items) in same_frame v v' /\ mine v' = mine v /\ nth_error (slots v') q = Some (SPost b).
Proof.
  induction ks as [|k ks IH]; intros Hq v b; [cbn; repeat split; auto|]. cbn [map quiet replay fold_left]. intros [[x Hx] H2] Hb.
  assert (Hk : k <> q) by (intros ->; apply Hq; now left). cbn [replay1] in *. rewrite Hx in *. rewrite post_eq in Hx. destruct (warm_cb k e (pv v)) as [[skip l']|] eqn:Ew; [|discriminate].
  rewrite (proj2 (Nat.eqb_neq k q)) in Hx by exact Hk. injection Hx as <-.
  pose proof (warm_other k q e (pv v) skip l' b Hk Hb Ew) as Hl.
  destruct (IH (fun h => Hq (or_intror h)) _ b H2 Hl) as ((A1 & A2 & A3 & A4) & B & C). unfold same_frame. cbn [vw_mode vw_epoch vw_n_epochs vw_bs] in *. auto 10.
Qed.
Lemma on_own c l0 v e b : c_cbs c = places l0 -> q < length l0 -> quiet m v (on c e : items) -> nth_error (slots v) q = Some (SPost b) ->
  let v' := replay m v (on c e : items) in
  same_frame v v' /\ exists b', nth_error (slots v') q = Some (SPost b') /\ own e (negb b && b')%bool b' (ov v) = Ok (mine v').
Proof.
  intros Hc Hq Hqu Hb. unfold on in *. rewrite Hc in *. unfold places in *.
  assert (Hs : seq 0 (length l0) = seq 0 q ++ q :: seq (S q) (length l0 - S q)).
  { replace (length l0) with (q + S (length l0 - S q)) at 1 by lia. rewrite seq_app. cbn. reflexivity. }
  rewrite Hs, map_app in *. cbn [map] in *. apply quiet_app in Hqu as [Q1 [Q2 Q3]]. rewrite replay_app.
  destruct (others e (seq 0 q) ltac:(rewrite in_seq; lia) v b Q1 Hb) as ((A1 & A2 & A3 & A4) & B & C).
  set (v1 := replay m v _) in *. cbv zeta. cbn [replay fold_left].
  destruct Q2 as [x Hx]. cbn [replay1] in *. rewrite Hx in *. rewrite post_eq in Hx. destruct (warm_cb q e (pv v1)) as [[skip l']|] eqn:Ew; [|discriminate].
  rewrite Nat.eqb_refl in Hx. rewrite (act_post _ _ _ C) in Hx. destruct (own _ _ _ _) as [o'|] eqn:Eo; [|discriminate]. injection Hx as <-.
  assert (Hl : nth_error l' q = Some (SPost (act_of l' q))).
  { revert Ew. rewrite warm_cb_eq. cbv zeta. unfold pv at 1. cbn [with_st vw_st]. rewrite C.
    assert (Hlen : q < length (slots v1)) by (apply nth_error_Some; congruence).
    assert (Hset : forall b0, nth_error (set_at q (SPost b0) (slots v1)) q = Some (SPost (act_of (set_at q (SPost b0) (slots v1)) q))).
    { intros b0. unfold act_of. now rewrite set_same. }
    assert (Hsame : nth_error (slots v1) q = Some (SPost (act_of (slots v1) q))) by (now rewrite (act_post _ _ _ C)).
    unfold same_as, pv. cbn [with_st vw_st]. destruct e, b; try (now intros [= _ <-]); try (intros [= _ <-]; apply Hset);
      match goal with |- (if ?x then _ else _) = _ -> _ => destruct x end; intros [= _ <-]; [apply Hset|exact Hsame]. }
  match goal with |- context [fold_left (replay1 m) (map _ (seq (S q) _)) ?w] => set (v2 := w) in * end.
  destruct (others e (seq (S q) (length l0 - S q)) ltac:(rewrite in_seq; lia) v2 (act_of l' q) Q3 Hl) as ((D1 & D2 & D3 & D4) & E' & F).
  unfold replay in *. split.
  - unfold same_frame. rewrite D1, D2, D3, D4. unfold v2. cbn [vw_mode vw_epoch vw_n_epochs vw_bs]. now rewrite A1, A2, A3, A4.
  - exists (act_of l' q). split; [exact F|]. rewrite E'. unfold v2, mine at 1. cbn [vw_st snd]. rewrite <- Eo. apply own_skip; unfold ov; cbn; auto.
Qed.
End Own.

(* ---- the scan of a batch, up to on_step_end ---- *)
Definition before_step {I P} (i : item I P) : Prop := scan_item i /\ match i with Call _ StepEnd => False | _ => True end.
Section Items.
Context {I P : Type}.
Variable c : cfg.
Notation items := (list (item I P)).
Lemma bs_on e : in_scan e = true -> e <> StepEnd -> Forall before_step (on c e : items).
Proof. intros H N. apply Forall_forall. intros x Hx. apply in_map_iff in Hx as [k [<- _]]. split; [exact H|]. destruct e; auto. Qed.
Lemma bs_vol (v : vol I P) : Forall before_step (doc_vol c v).
Proof.
  unfold doc_vol, doc_mu. repeat first [ apply Forall_app; split | (apply bs_on; [reflexivity|discriminate]) | constructor; [split; exact Logic.I|] | constructor ].
  - generalize (c_n_mu c / c_mu_bs c). intros n. induction n as [|n IH]; [constructor|]. cbn [repeat concat]. apply Forall_app. split; [|exact IH].
    repeat first [ apply Forall_app; split | (apply bs_on; [reflexivity|discriminate]) | constructor; [split; exact Logic.I|] | constructor ].
  - destruct (v_loss v); repeat constructor.
Qed.
Lemma bs_flat {A} (f : A -> items) l : (forall a, Forall before_step (f a)) -> Forall before_step (flat_map f l).
Proof. intros H. induction l as [|a l IH]; [constructor|]. cbn. apply Forall_app. auto. Qed.
Lemma batch_split skip (vs : list (vol I P)) : exists A, doc_batch c true skip vs = A ++ on c StepEnd ++ [Conform] /\ Forall before_step A.
Proof.
  exists (on c VolumeBatchBegin ++ flat_map (doc_vol c) vs ++ [Mean (mean_loss c vs)] ++ on c VolumeBatchEnd ++ [ZeroGrad] ++ on c BackwardsBegin
    ++ match mean_loss c vs with Some l => [Backward l] | None => [] end ++ on c BackwardsEnd ++ (if skip then [] else match mean_loss c vs with Some _ => [Step] | None => [] end)).
  split.
  - unfold doc_batch, doc_end, doc_update. now rewrite <- !app_assoc.
  - repeat first [ apply Forall_app; split | (apply bs_on; [reflexivity|discriminate]) | apply bs_flat; apply bs_vol | constructor; [split; exact Logic.I|] | constructor
      | match goal with |- Forall _ (if ?x then _ else _) => destruct x | |- Forall _ (match ?x with _ => _ end) => destruct x end ].
Qed.
Lemma batch_before skip (vs : list (vol I P)) : Forall before_step (doc_batch c false skip vs).
Proof.
  unfold doc_batch, doc_end. 
  repeat first [ apply Forall_app; split | (apply bs_on; [reflexivity|discriminate]) | apply bs_flat; apply bs_vol | constructor; [split; exact Logic.I|] | constructor ].
Qed.
Lemma rest_before (vs : list (vol I P)) : Forall before_step (match vs with [] => [] | _ => on c VolumeBatchBegin ++ flat_map (doc_vol c) vs end).
Proof. destruct vs; [constructor|]. apply Forall_app. split; [apply bs_on; [reflexivity|discriminate]|]. apply bs_flat. apply bs_vol. Qed.
Lemma scan_valid_before skip (s : scan I P) : Forall before_step (doc_scan c false skip s).
Proof. unfold doc_scan. apply Forall_app. split; [|apply rest_before]. apply bs_flat. intros vs. apply batch_before. Qed.
End Items.

Section Run.
Context {I P O : Type}.
Variables (q : nat) (own : own_cb O) (l0 : list slot) (c : cfg) (ne bs : option nat) (B : nat) (b0 : bool).
Notation V := (view (list slot * O)).
Notation m := (post_cb q own).
Notation items := (list (item I P)).
Notation T := (total l0).
Hypothesis own_skip : forall e f a v v', vw_mode v = vw_mode v' -> vw_epoch v = vw_epoch v' -> vw_n_epochs v = vw_n_epochs v' -> vw_bs v = vw_bs v' -> vw_st v = vw_st v' ->
  own e f a v = own e f a v'.
Hypothesis own_idle : forall e f a v, in_scan e = true -> e <> StepEnd -> own e f a v = Ok (vw_st v).
Hypothesis Hc : c_cbs c = places l0.
Hypothesis Hq : nth_error l0 q = Some (SPost b0).
Hypothesis Hlast : lengths (skipn q l0) = [].
Variables (J : nat -> O -> Prop) (D : nat -> nat -> O -> Prop).
Definition ow (md : mode) (i : nat) (o : O) : view O := View (Some md) (S i) false ne bs o.
Variable o0 : O.
Hypothesis HJ0 : forall o1 o2 v, vw_n_epochs v = ne -> vw_bs v = bs -> vw_st v = o0 -> own SetWrapper false b0 v = Ok o1 ->
  own TrainBegin false false (View None 0 false ne bs o1) = Ok o2 -> J 0 o2.
Hypothesis HJD : forall i o o', J i o -> own EpochBegin (i =? T) (T <=? i) (ow Train i o) = Ok o' -> D i 0 o'.
Hypothesis HDD : forall i b o o', D i b o -> own StepEnd false (T <=? i) (ow Train i o) = Ok o' -> D i (S b) o'.
Hypothesis HDJ : forall i o o', D i B o -> own EpochEnd false (T <=? i) (ow Train i o) = Ok o' -> J (S i) o'.
Hypothesis HJb : forall i o o', J (S i) o -> own EpochBegin false (T <=? i) (ow Valid i o) = Ok o' -> J (S i) o'.
Hypothesis HJe : forall i o o', J (S i) o -> own EpochEnd false (T <=? i) (ow Valid i o) = Ok o' -> J (S i) o'.

Lemma q_lt : q < length l0. Proof. apply nth_error_Some. congruence. Qed.
Lemma before_q : before l0 q = length (lengths l0).
Proof. unfold before. rewrite <- (firstn_skipn q l0) at 2. now rewrite lengths_app, Hlast, app_nil_r. Qed.
Lemma start_q i (v : V) : at_start l0 ne bs i (pv v) -> nth_error (slots v) q = Some (SPost (T <? i)).
Proof.
  intros (s & p & md & Ev & G & HK & HP). destruct (HP q) as (_ & _ & H3 & _). specialize (H3 before_q).
  apply (f_equal vw_st) in Ev. cbn [vw_st pv with_st] in Ev. rewrite Ev, (nth_build _ _ _ _ _ _ _ Hq). cbn [plus]. now rewrite H3.
Qed.
Lemma inside_q i (v : V) : inside l0 ne bs i (pv v) -> nth_error (slots v) q = Some (SPost (T <=? i)).
Proof.
  intros (s & p & Ev & G & Hs & HP). destruct (HP q) as (_ & _ & H3 & _). specialize (H3 before_q).
  apply (f_equal vw_st) in Ev. cbn [vw_st pv with_st] in Ev. rewrite Ev, (nth_build _ _ _ _ _ _ _ Hq). cbn [plus]. rewrite H3.
  reflexivity.
Qed.
Lemma view_eq (v v' : V) : pv v = pv v' -> mine v = mine v' -> v = v'.
Proof. destruct v as [? ? ? ? ? [? ?]], v' as [? ? ? ? ? [? ?]]. unfold pv, with_st, slots, mine. cbn. intros [= -> -> -> -> -> ->] ->. reflexivity. Qed.
Lemma pre_still (t : items) : Forall before_step t -> forall v, quiet m v t -> replay m v t = v.
Proof.
  induction 1 as [|i t [H N] F IH]; intros v; [reflexivity|]. cbn [quiet replay fold_left]. intros [H1 H2].
  assert (E1 : replay1 m v i = v).
  { apply view_eq.
    - rewrite (proj1_ q own v i H1). destruct i; cbn in H |- *; try reflexivity; try contradiction. rewrite (warm_idle _ _ _ H). reflexivity.
    - destruct i; try reflexivity; try (now cbn in H). destruct H1 as [x Hx]. cbn [replay1]. rewrite Hx. rewrite post_eq in Hx.
      destruct (warm_cb cb e (pv v)) as [[skip l']|]; [|discriminate]. destruct (Nat.eqb cb q).
      + rewrite own_idle in Hx by (auto; intros ->; auto). injection Hx as <-. reflexivity.
      + injection Hx as <-. reflexivity. }
  rewrite E1 in *. exact (IH v H2).
Qed.
(* state in the training scan of epoch i after b batches *)
Definition at_batch i b (v : V) : Prop := inside l0 ne bs i (pv v) /\ D i b (mine v).
Lemma batch_on i b skip vs v : at_batch i b v -> quiet m v (doc_batch c true skip vs : items) -> at_batch i (S b) (replay m v (doc_batch c true skip vs : items)).
Proof.
  intros [H1 H2] Hqu. pose proof (proj q own _ _ Hqu) as Hp. 
  assert (Hp' : pv (replay m v (doc_batch c true skip vs : items)) = pv v).
  { rewrite Hp. eapply (still_scan warm_cb); [exact warm_idle|]. destruct (batch_split c skip vs) as (A & -> & F). apply Forall_app. split; [eapply Forall_impl; [|exact F]; intros x Hx; apply Hx|].
    apply Forall_app. split; [apply si_on; reflexivity|repeat constructor]. }
  split; [rewrite Hp'; exact H1|]. destruct (batch_split c skip vs) as (A & E1 & F). rewrite E1 in *. apply quiet_app in Hqu as [Q1 Q2]. rewrite replay_app, (pre_still A F v Q1) in *.
  apply quiet_app in Q2 as [Q2 _]. rewrite replay_app. cbn [replay fold_left replay1].
  destruct (on_own q own own_skip c l0 v StepEnd _ Hc q_lt Q2 (inside_q i v H1)) as (SF & b' & Hb & Ho).
  assert (Hb' : b' = (T <=? i)).
  { assert (E2 : pv (replay m v (on c StepEnd : items)) = pv v).
    { rewrite (proj q own _ _ Q2). eapply (still_scan warm_cb); [exact warm_idle|]. apply si_on; reflexivity. }
    assert (Hi : inside l0 ne bs i (pv (replay m v (on c StepEnd : items)))) by (rewrite E2; exact H1). apply inside_q in Hi. rewrite Hb in Hi. now injection Hi. }
  rewrite Hb', andb_comm, andb_negb_r in Ho. fold (replay m v (on c StepEnd : items)). eapply HDD; [exact H2|]. rewrite <- Ho. apply own_skip; destruct H1 as (s & p & Ev & _); unfold pv, with_st in Ev; injection Ev; cbn; auto.
Qed.
Lemma batches_on i skip bss : forall b v, at_batch i b v -> quiet m v (flat_map (doc_batch c true skip) bss : items) ->
  at_batch i (b + length bss) (replay m v (flat_map (doc_batch c true skip) bss : items)).
Proof.
  induction bss as [|vs bss IH]; intros b v H Hqu; cbn [flat_map length]; [now rewrite Nat.add_0_r|].
  cbn [flat_map] in Hqu. apply quiet_app in Hqu as [Q1 Q2]. rewrite replay_app, <- plus_n_Sm. apply (IH (S b)); [|exact Q2]. now apply batch_on.
Qed.
Definition at_begin i (v : V) : Prop := at_start l0 ne bs i (pv v) /\ J i (mine v).
Lemma begin_on i v : at_begin i v -> quiet m v ([SetTrain] ++ on c EpochBegin : items) -> at_batch i 0 (replay m v ([SetTrain] ++ on c EpochBegin : items)).
Proof.
  intros [H1 H2] Hqu. assert (HI : inside l0 ne bs i (pv (replay m v ([SetTrain] ++ on c EpochBegin : items)))).
  { rewrite (proj q own _ _ Hqu). now apply begin_inside. }
  split; [exact HI|]. apply quiet_app in Hqu as [_ Q2]. rewrite replay_app in *. set (v1 := replay m v [SetTrain]) in *.
  assert (Hs : nth_error (slots v1) q = Some (SPost (T <? i))) by exact (start_q i v H1).
  destruct (on_own q own own_skip c l0 v1 EpochBegin _ Hc q_lt Q2 Hs) as (SF & b' & Hb & Ho). apply inside_q in HI. rewrite Hb in HI. injection HI as ->.
  eapply HJD; [exact H2|]. rewrite <- Ho. replace (negb (T <? i) && (T <=? i))%bool with (i =? T).
  - apply own_skip; destruct H1 as (s & p & md & Ev & _); unfold pv, with_st in Ev; injection Ev; cbn; auto.
  - destruct (Nat.ltb_spec T i), (Nat.leb_spec T i), (Nat.eqb_spec i T); try reflexivity; lia.
Qed.
Lemma epoch_on i x v : length (sc_batches (ep_train x)) = B -> at_begin i v -> quiet m v (doc_epoch c x : items) -> at_begin (S i) (replay m v (doc_epoch c x : items)).
Proof.
  intros HB H Hqu. assert (HS : at_start l0 ne bs (S i) (pv (replay m v (doc_epoch c x : items)))).
  { rewrite (proj q own _ _ Hqu). apply epoch_steps_on; [exact Hc|apply H]. }
  split; [exact HS|].
  unfold doc_epoch, doc_run, doc_scan in *. rewrite !app_assoc in *. rewrite <- !app_assoc in *. rewrite (app_assoc [SetTrain]) in *.
  apply quiet_app in Hqu as [Q1 Qr]. pose proof (begin_on i v H Q1) as H1. rewrite replay_app. set (v1 := replay m v ([SetTrain] ++ _)) in *. clearbody v1.
  apply quiet_app in Qr as [Q2 Qr]. rewrite replay_app. pose proof (batches_on i (ep_skip x) _ 0 v1 H1 Q2) as H2. rewrite HB in H2. cbn [plus] in H2.
  set (v2 := replay m v1 _) in *. clearbody v2. apply quiet_app in Qr as [Q3 Qr]. rewrite replay_app. rewrite (pre_still _ (rest_before c _) v2 Q3) in *.
  apply quiet_app in Qr as [Q4 Qr]. rewrite replay_app.
  assert (HA : at_begin (S i) (replay m v2 (on c EpochEnd : items)) /\ vw_epoch (replay m v2 (on c EpochEnd : items)) = S i).
  { destruct H2 as [A1 A2]. assert (HS2 : at_start l0 ne bs (S i) (pv (replay m v2 (on c EpochEnd : items)))).
    { rewrite (proj q own _ _ Q4). now apply end_start. }
    split; [split; [exact HS2|]|].
    - destruct (on_own q own own_skip c l0 v2 EpochEnd _ Hc q_lt Q4 (inside_q i v2 A1)) as (SF & b' & Hb & Ho). apply start_q in HS2. rewrite Hb in HS2. injection HS2 as ->.
      eapply HDJ; [exact A2|]. rewrite <- Ho. replace (negb (T <=? i) && (T <? S i))%bool with false by (destruct (Nat.leb_spec T i), (Nat.ltb_spec T (S i)); try reflexivity; lia).
      replace (T <? S i) with (T <=? i) by (destruct (Nat.leb_spec T i), (Nat.ltb_spec T (S i)); try reflexivity; lia).
      apply own_skip; destruct A1 as (s & p & Ev & _); unfold pv, with_st in Ev; injection Ev; cbn; auto.
    - destruct HS2 as (s & p & md & Ev & _). apply (f_equal vw_epoch) in Ev. exact Ev. }
  destruct HA as [HA HE]. set (v3 := replay m v2 (on c EpochEnd : items)) in *. clearbody v3. clear Q1 Q2 Q3 Q4 HS H1 H2 H.
  destruct (ep_valid x) as [s|]; [|apply HA].
  cbn [app] in *. destruct Qr as [_ Qr]. change (replay m v3 (SetEval :: ?l)) with (replay m (replay1 m v3 (SetEval : item I P)) l). set (v4 := replay1 m v3 SetEval) in *.
  destruct HA as [A1 A2].
  assert (P4 : vw_mode v4 = Some Valid /\ vw_epoch v4 = S i /\ vw_n_epochs v4 = ne /\ vw_bs v4 = bs /\ nth_error (slots v4) q = Some (SPost (T <=? i)) /\ J (S i) (mine v4)).
  { pose proof (start_q (S i) v3 A1) as Hs. destruct A1 as (s' & p & md & Ev & _). split; [reflexivity|]. split; [exact HE|].
    split; [exact (f_equal vw_n_epochs Ev)|]. split; [exact (f_equal vw_bs Ev)|]. split; [|exact A2].
    replace (T <=? i) with (T <? S i) by (destruct (Nat.leb_spec T i), (Nat.ltb_spec T (S i)); try reflexivity; lia). exact Hs. }
  clearbody v4. clear A1 A2 HE v3.
  assert (Hev : forall e v', e = EpochBegin \/ e = EpochEnd ->
    vw_mode v' = Some Valid /\ vw_epoch v' = S i /\ vw_n_epochs v' = ne /\ vw_bs v' = bs /\ nth_error (slots v') q = Some (SPost (T <=? i)) /\ J (S i) (mine v') -> quiet m v' (on c e : items) ->
    let w := replay m v' (on c e : items) in vw_mode w = Some Valid /\ vw_epoch w = S i /\ vw_n_epochs w = ne /\ vw_bs w = bs /\ nth_error (slots w) q = Some (SPost (T <=? i)) /\ J (S i) (mine w)).
  { intros e v' He (E1 & E2 & E3 & E4 & E5 & E6) Qe. destruct (on_own q own own_skip c l0 v' e _ Hc q_lt Qe E5) as ((F1 & F2 & F3 & F4) & b' & Hb & Ho).
    assert (Hp : pv (replay m v' (on c e : items)) = pv v').
    { rewrite (proj q own _ _ Qe). unfold on. rewrite Hc. apply (calls_same (I := I) (P := P) warm_cb). intros k. apply warm_valid; auto. }
    assert (Hsl : slots (replay m v' (on c e : items)) = slots v') by exact (f_equal vw_st Hp). rewrite Hsl in Hb. rewrite E5 in Hb. injection Hb as <-.
    rewrite andb_comm, andb_negb_r in Ho. cbv zeta. rewrite F1, F2, F3, F4, Hsl. repeat (split; [assumption|]).
    assert (Hov : own e false (T <=? i) (ov v') = own e false (T <=? i) (ow Valid i (mine v'))) by (apply own_skip; cbn; congruence).
    rewrite Hov in Ho. destruct He as [-> | ->]; eauto. }
  apply quiet_app in Qr as [Q5 Qr]. rewrite replay_app. pose proof (Hev EpochBegin v4 (or_introl eq_refl) P4 Q5) as P5. set (v5 := replay m v4 _) in *. clearbody v5.
  apply quiet_app in Qr as [Q6 Q7]. rewrite replay_app. pose proof (scan_valid_before c (ep_skip x) s) as FS. unfold doc_scan in FS.
  rewrite (pre_still _ FS v5 Q6) in *. apply (Hev EpochEnd v5 (or_intror eq_refl) P5 Q7).
Qed.
Lemma epochs_on_own xs : forall i v, Forall (fun x => length (sc_batches (ep_train x)) = B) xs -> at_begin i v -> quiet m v (flat_map (doc_epoch c) xs : items) ->
  at_begin (i + length xs) (replay m v (flat_map (doc_epoch c) xs : items)).
Proof.
  induction xs as [|x xs IH]; intros i v F H Hqu; cbn [length flat_map]; [now rewrite Nat.add_0_r|]. inversion F as [|? ? F1 F2]. cbn [flat_map] in Hqu. apply quiet_app in Hqu as [Q1 Q2].
  rewrite replay_app, <- plus_n_Sm. apply (IH (S i)); auto. now apply epoch_on.
Qed.
Lemma train_on : let v := View None 0 false ne bs (l0, o0) in quiet m v (on c SetWrapper ++ on c TrainBegin : items) ->
  at_begin 0 (replay m v (on c SetWrapper ++ on c TrainBegin : items)).
Proof.
  intros v Hqu. assert (HS : at_start l0 ne bs 0 (pv (replay m v (on c SetWrapper ++ on c TrainBegin : items)))).
  { rewrite (proj q own _ _ Hqu). apply begin_start; [exact Hc|reflexivity]. }
  split; [exact HS|]. apply quiet_app in Hqu as [Q1 Q2]. rewrite replay_app in *.
  destruct (on_own q own own_skip c l0 v SetWrapper b0 Hc q_lt Q1 Hq) as ((F1 & F2 & F3 & F4) & b' & Hb & Ho).
  assert (Hp : pv (replay m v (on c SetWrapper : items)) = pv v).
  { rewrite (proj q own _ _ Q1). unfold on. rewrite Hc. apply (calls_same (I := I) (P := P) warm_cb). intros k. rewrite warm_cb_eq. cbv zeta.
    destruct (nth_error (vw_st (pv v)) k) as [[n cnt []|[]|]|]; reflexivity. }
  assert (Hsl : slots (replay m v (on c SetWrapper : items)) = slots v) by exact (f_equal vw_st Hp). pose proof Hb as Hb1. rewrite Hsl in Hb1. change (slots v) with l0 in Hb1.
  rewrite Hq in Hb1. injection Hb1 as <-. rewrite andb_comm, andb_negb_r in Ho. set (v1 := replay m v (on c SetWrapper : items)) in *.
  destruct (on_own q own own_skip c l0 v1 TrainBegin b0 Hc q_lt Q2 Hb) as (SF & b' & Hb' & Ho'). apply start_q in HS. rewrite Hb' in HS. injection HS as ->. change (T <? 0) with false in Ho'.
  rewrite andb_false_r in Ho'. eapply HJ0; [| | |exact Ho|]; [reflexivity|reflexivity|reflexivity|]. rewrite <- Ho'. apply own_skip; cbn [ov with_st vw_mode vw_epoch vw_n_epochs vw_bs vw_st]; auto.
Qed.
(* in the training scan of epoch i, after b batches *)
Lemma own_batches xs i x b : Forall (fun x => length (sc_batches (ep_train x)) = B) xs ->
  let v := View None 0 false ne bs (l0, o0) in let t := upto c xs i ++ flat_map (doc_batch c true (ep_skip x)) (firstn b (sc_batches (ep_train x))) in
  nth_error xs i = Some x -> b <= B -> quiet m v (doc_fit c xs : items) -> at_batch i b (replay m v (t : items)).
Proof.
  intros F v t Hx Hb Hqu.
  assert (HBx : length (sc_batches (ep_train x)) = B) by (rewrite Forall_forall in F; apply F; eapply nth_error_In; eauto).
  destruct (nth_error_split xs i Hx) as (l1 & l2 & -> & L1). 
  assert (E1 : firstn i (l1 ++ x :: l2) = l1) by (rewrite <- L1, firstn_app, Nat.sub_diag, firstn_all; cbn; now rewrite app_nil_r).
  assert (Ht : exists r, (doc_fit c (l1 ++ x :: l2) : items) = t ++ r).
  { assert (Es : (doc_scan c true (ep_skip x) (ep_train x) : items) = flat_map (doc_batch c true (ep_skip x)) (firstn b (sc_batches (ep_train x))) ++
      flat_map (doc_batch c true (ep_skip x)) (skipn b (sc_batches (ep_train x))) ++
      match sc_rest (ep_train x) with [] => [] | _ => on c VolumeBatchBegin ++ flat_map (doc_vol c) (sc_rest (ep_train x)) end).
    { unfold doc_scan. rewrite app_assoc, <- flat_map_app, firstn_skipn. reflexivity. }
    assert (Ed : doc_epoch c x = [SetTrain] ++ (on c EpochBegin ++ doc_scan c true (ep_skip x) (ep_train x) ++ on c EpochEnd) ++
      match ep_valid x with Some s => [SetEval] ++ doc_run c false (ep_skip x) s | None => [] end) by reflexivity.
    unfold t, upto. rewrite E1. unfold doc_fit. rewrite flat_map_app. cbn [flat_map]. rewrite Ed, Es. eexists. rewrite <- !app_assoc. reflexivity. }
  destruct Ht as [r Hr]. rewrite Hr in Hqu. apply quiet_app in Hqu as [Hqt _]. clear Hr. unfold t, upto in *. rewrite E1 in *.
  rewrite !app_assoc in *. rewrite <- (app_assoc _ [SetTrain]) in *. apply quiet_app in Hqt as [Q1 Q4]. apply quiet_app in Q1 as [Q1 Q3]. apply quiet_app in Q1 as [Q1 Q2].
  rewrite !replay_app. pose proof (train_on Q1) as H1. rewrite replay_app in H1, Q2. fold v in H1. apply Forall_app in F as [F _].
  pose proof (epochs_on_own l1 0 _ F H1 Q2) as H2. cbn [plus] in H2. rewrite L1 in H2.
  rewrite !replay_app in Q3. pose proof (begin_on i _ H2 Q3) as H3. rewrite !replay_app in Q4. rewrite !replay_app in H3.
  pose proof (batches_on i (ep_skip x) (firstn b (sc_batches (ep_train x))) 0 _ H3 Q4) as H4. rewrite firstn_length in H4. replace (0 + Nat.min b (length (sc_batches (ep_train x)))) with b in H4 by lia.
  exact H4.
Qed.
End Run.
