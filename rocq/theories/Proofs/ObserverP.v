(* What an observer has seen in a fit. *)
From Coq Require Import Lia.
From Verif Require Import Base.RUtil Model.Fit Model.Observer Spec.FitSpec Spec.SaverSpec Proofs.FitP Proofs.FitScan Proofs.FitAll Proofs.FitCount.
Open Scope list_scope.

(* ---- what can be read from a trace: epochs begun, whether in training, steps made, and the calls of interest: event, training, epochs, steps ---- *)
Record seen := Seen { n_ev : event; n_train : bool; n_ep : nat; n_steps : nat }.
Record watcher := Wt { o_train : bool; o_ep : nat; o_steps : nat; o_log : list seen }.
Definition o0 : watcher := Wt false 0 0 [].
Section Watch.
Context {I P : Type}.
Variable h : nat.
Variable want : event -> bool.
Definition watch1 (k : watcher) (i : item I P) : watcher :=
  match i with
  | SetTrain => Wt true (S (o_ep k)) (o_steps k) (o_log k)
  | SetEval => Wt false (o_ep k) (o_steps k) (o_log k)
  | Step => Wt (o_train k) (o_ep k) (S (o_steps k)) (o_log k)
  | Call n e => if (n =? h)%nat && want e then Wt (o_train k) (o_ep k) (o_steps k) (o_log k ++ [Seen e (o_train k) (o_ep k) (o_steps k)]) else k
  | _ => k
  end.
Definition watch (k : watcher) (l : list (item I P)) : watcher := fold_left watch1 l k.
Lemma watch_app k l m : watch k (l ++ m) = watch (watch k l) m. Proof. apply fold_left_app. Qed.
Lemma watch_snoc k l i : watch k (l ++ [i]) = watch1 (watch k l) i. Proof. now rewrite watch_app. Qed.

(* nothing to see *)
Definition dull (i : item I P) : bool := match i with SetTrain | SetEval | Step => false | Call _ e => negb (want e) | _ => true end.
Lemma watch_dull l : forallb dull l = true -> forall k, watch k l = k.
Proof.
  induction l as [|i l IH]; intros H k; [reflexivity|]. cbn [forallb] in H. apply andb_prop in H as [H1 H2]. unfold watch. cbn [fold_left].
  replace (watch1 k i) with k; [exact (IH H2 k)|]. destruct i as [n e| | | | | | | | | | | | | | |]; try reflexivity; try discriminate.
  cbn [dull] in H1. cbn [watch1]. destruct (want e); [discriminate|]. now rewrite Bool.andb_false_r.
Qed.
Lemma dull_on c e : want e = false -> forallb dull (on c e) = true.
Proof. intros A. unfold on. apply forallb_forall. intros x Hx. apply in_map_iff in Hx as [k [<- _]]. cbn [dull]. now rewrite A. Qed.
Lemma forallb_concat {A} (f : A -> bool) ls : (forall l, In l ls -> forallb f l = true) -> forallb f (concat ls) = true.
Proof. induction ls as [|l ls IH]; intros H; [reflexivity|]. cbn. rewrite forallb_app, (H l) by now left. apply IH. intros x Hx. apply H. now right. Qed.
(* only the coarse events are of interest *)
Hypothesis Hw : forall e, want e = true -> sets_skip e = true.
Ltac quiet := match goal with |- want ?e = false => destruct (want e) eqn:Q; [apply Hw in Q; discriminate|reflexivity] end.
Lemma dull_vol c (v : vol I P) : forallb dull (doc_vol c v) = true.
Proof.
  unfold doc_vol. rewrite !forallb_app, !dull_on by quiet. rewrite forallb_concat.
  - now destruct (v_loss v).
  - intros l Hl. apply repeat_spec in Hl as ->. unfold doc_mu. now rewrite !forallb_app, !dull_on by quiet.
Qed.
Lemma dull_vols c (vs : list (vol I P)) : forallb dull (flat_map (doc_vol c) vs) = true.
Proof. rewrite flat_map_concat_map. apply forallb_concat. intros l Hl. apply in_map_iff in Hl as [v [<- _]]. apply dull_vol. Qed.
Lemma dull_scan c s : forallb dull (@doc_scan I P c false true s) = true.
Proof.
  unfold doc_scan. rewrite forallb_app. apply andb_true_intro. split.
  - rewrite flat_map_concat_map. apply forallb_concat. intros l Hl. apply in_map_iff in Hl as [vs [<- _]]. unfold doc_batch, doc_end.
    now rewrite !forallb_app, !dull_on, dull_vols by quiet.
  - destruct (sc_rest s); [reflexivity|]. now rewrite forallb_app, dull_on, dull_vols by quiet.
Qed.
Lemma scan_false c b s : @doc_scan I P c false b s = doc_scan c false true s. Proof. reflexivity. Qed.
Definition more (n : nat) (k : watcher) : watcher := Wt (o_train k) (o_ep k) (o_steps k + n) (o_log k).
Lemma more_0 k : more 0 k = k. Proof. destruct k. unfold more. cbn. now rewrite Nat.add_0_r. Qed.
Lemma watch_update c (skip : bool) (m : option R) k : watch k (@doc_update I P c skip m) = more (if skip then 0 else match m with Some _ => 1 | None => 0 end) k.
Proof.
  unfold doc_update. rewrite !watch_app. rewrite !(watch_dull (on c _)) by (apply dull_on; quiet). rewrite (watch_dull [ZeroGrad]), (watch_dull [Conform]) by reflexivity.
  rewrite (watch_dull (match m with Some l => [Backward l] | None => [] end)) by now destruct m.
  destruct skip, m; cbn; rewrite ?more_0; try reflexivity. unfold more. f_equal. lia.
Qed.
Lemma watch_batches c (skip : bool) (bs : list (list (vol I P))) : forall k,
  watch k (flat_map (doc_batch c true skip) bs) = more (if skip then 0 else list_sum (map has_mean bs)) k.
Proof.
  induction bs as [|vs bs IH]; intros k; [destruct skip; now rewrite more_0|]. cbn [flat_map map]. rewrite watch_app, IH. unfold doc_batch, doc_end. rewrite !watch_app.
  rewrite !watch_dull with (l := on c _) by (apply dull_on; quiet). rewrite (watch_dull (flat_map _ _)) by apply dull_vols.
  rewrite (watch_dull [Mean _]) by reflexivity. rewrite watch_update. unfold more. cbn [o_train o_ep o_steps o_log]. f_equal.
  replace (match mean_loss c vs with Some _ => 1 | None => 0 end)%nat with (has_mean vs) by (unfold mean_loss, has_mean; now destruct (losses vs)).
  destruct skip; [lia|]. unfold list_sum. cbn. lia.
Qed.
Lemma watch_scan c (skip : bool) s k : watch k (@doc_scan I P c true skip s) = more (if skip then 0 else list_sum (map has_mean (sc_batches s))) k.
Proof.
  unfold doc_scan. rewrite watch_app. rewrite (watch_dull (match sc_rest s with [] => _ | _ => _ end)); [apply watch_batches|].
  destruct (sc_rest s); [reflexivity|]. now rewrite forallb_app, dull_on, dull_vols by quiet.
Qed.
Lemma watch_out e k l : ~ In h l -> watch k (map (fun n => Call n e) l) = k.
Proof.
  induction l as [|n l IH]; intros H; [reflexivity|]. cbn [map]. unfold watch. cbn [fold_left watch1]. destruct (Nat.eqb_spec n h) as [->|N]; [exfalso; apply H; now left|].
  cbn [andb]. apply IH. intros Hi. apply H. now right.
Qed.
Variable c : cfg.
Variables c1 c2 : list nat.
Hypothesis Hc : c_cbs c = c1 ++ h :: c2.
Hypothesis H1 : ~ In h c1.
Hypothesis H2 : ~ In h c2.
(* one look at event e *)
Definition once (e : event) (k : watcher) : list seen := if want e then [Seen e (o_train k) (o_ep k) (o_steps k)] else [].
Lemma watch_on e k : watch k (on c e) = Wt (o_train k) (o_ep k) (o_steps k) (o_log k ++ once e k).
Proof.
  unfold on. rewrite Hc, map_app, watch_app, (watch_out e k c1 H1). cbn [map]. change (?a :: ?l) with ([a] ++ l). rewrite watch_app, watch_out by exact H2.
  unfold watch, once. cbn [fold_left watch1]. rewrite Nat.eqb_refl. cbn [andb]. destruct (want e); [reflexivity|]. rewrite app_nil_r. now destruct k.
Qed.
(* what is seen of the epoch number e that begins after st steps *)
Definition epoch_seen (e st : nat) (x : epoch I P) : list seen :=
  once EpochBegin (Wt true e st []) ++ once EpochEnd (Wt true e (st + steps_in x) []) ++
  match ep_valid x with Some _ => once EpochBegin (Wt false e (st + steps_in x) []) ++ once EpochEnd (Wt false e (st + steps_in x) []) | None => [] end.
Fixpoint epochs_seen (e st : nat) (xs : list (epoch I P)) : list seen :=
  match xs with [] => [] | x :: xs => epoch_seen (S e) st x ++ epochs_seen (S e) (st + steps_in x) xs end.
Lemma watch_epoch x k : exists t,
  watch k (@doc_epoch I P c x) = Wt t (S (o_ep k)) (o_steps k + steps_in x) (o_log k ++ epoch_seen (S (o_ep k)) (o_steps k) x).
Proof.
  unfold doc_epoch, doc_run, epoch_seen, steps_in.
  destruct (ep_valid x) as [v|].
  - exists false. rewrite !watch_app, !watch_on, watch_scan. rewrite scan_false, (watch_dull (doc_scan _ _ _ _)) by apply dull_scan.
    unfold more, watch. cbn [fold_left watch1 o_train o_ep o_steps o_log]. rewrite <- !app_assoc. reflexivity.
  - exists true. rewrite !watch_app, !watch_on, watch_scan. unfold more, watch. cbn [fold_left watch1 o_train o_ep o_steps o_log]. rewrite <- !app_assoc, !app_nil_r. reflexivity.
Qed.
Lemma watch_epochs xs : forall k, exists t,
  watch k (flat_map (@doc_epoch I P c) xs) = Wt t (o_ep k + length xs) (o_steps k + list_sum (map steps_in xs)) (o_log k ++ epochs_seen (o_ep k) (o_steps k) xs).
Proof.
  induction xs as [|x xs IH]; intros k.
  - exists (o_train k). cbn. rewrite app_nil_r. destruct k; cbn. f_equal; lia.
  - cbn [flat_map]. rewrite watch_app. destruct (watch_epoch x k) as [t ->]. edestruct IH as [t' ->]. exists t'. cbn [o_ep o_steps o_log epochs_seen].
    rewrite <- app_assoc. cbn [length map]. f_equal; [lia|]. unfold list_sum. cbn. fold (list_sum (map steps_in xs)). lia.
Qed.
Lemma watch_fit xs : exists t, watch o0 (@doc_fit I P c xs) =
  Wt t (length xs) (list_sum (map steps_in xs))
     (once SetWrapper o0 ++ once TrainBegin o0 ++ epochs_seen 0 0 xs ++ once TrainEnd (Wt t (length xs) (list_sum (map steps_in xs)) [])).
Proof.
  unfold doc_fit. rewrite !watch_app, !watch_on. cbn [o_train o_ep o_steps o_log o0 app].
  edestruct (watch_epochs xs) as [t ->]. exists t. cbn [o_train o_ep o_steps o_log plus]. rewrite <- !app_assoc. reflexivity.
Qed.
End Watch.

(* ---- the attributes follow from what was seen ---- *)
Section F.
Context {W I P X : Type}.
Variable cb : event -> fp P -> W -> X -> res unit * X.
Variable want : event -> bool.
Hypothesis Hcb : forall e f w x, want e = false -> cb e f w x = (Ok tt, x).
(* the callback called with one thing after the other until it raises *)
Fixpoint replay (l : list (event * fp P * W)) (x : X) : res unit * X :=
  match l with
  | [] => (Ok tt, x)
  | (e, f, w) :: l => match cb e f w x with (Ok _, x) => replay l x | (Err e, x) => (Err e, x) end
  end.
Lemma replay_app l m x : replay (l ++ m) x = match replay l x with (Ok _, x) => replay m x | (Err e, x) => (Err e, x) end.
Proof. revert x. induction l as [|[[e f] w] l IH]; intros x; [reflexivity|]. cbn. destruct (cb e f w x) as [[[]|y] x']; auto. Qed.
Variable E : env W I P.
Variable h : nat.
Variable cbs : list nat.
Notation others := (filter (fun k => negb (Nat.eqb k h)) cbs).
Hypothesis HT : tame E others.
Notation E' := (with_obs cb E h).
Variable ver : W -> nat.
Variable v0 : nat.
Variable x0 : X.
Lemma others_in k : In k cbs -> k <> h -> In k others.
Proof. intros H N. apply filter_In. split; [exact H|]. now apply Nat.eqb_neq in N as ->. Qed.
Lemma tame_obs : tame E' cbs.
Proof.
  intros k e f [w a] f' [w' a'] Hk H. cbn in H. destruct (Nat.eqb_spec k h) as [->|N].
  - destruct (cb e f w a) as [r b]. injection H as _ <- _ _. tauto.
  - destruct (e_cb E k e (f, w)) as [r [g v]] eqn:Ec. injection H as -> -> -> _. exact (HT _ _ _ _ _ _ (others_in k Hk N) Ec).
Qed.
Lemma calm_obs : calm E others -> calm E' cbs.
Proof.
  intros HC k e f [w a] r f' [w' a'] Hk H. cbn in H. destruct (Nat.eqb_spec k h) as [->|N].
  - destruct (cb e f w a) as [q b]. injection H as _ <- _ _. tauto.
  - destruct (e_cb E k e (f, w)) as [q [g v]] eqn:Ec. injection H as <- <- <- _. exact (HC _ _ _ _ _ _ _ (others_in k Hk N) Ec).
Qed.
(* (e, f, w) is what the trace says was seen *)
Definition agrees (z : event * fp P * W) (n : seen) : Prop :=
  let '(e, f, w) := z in
  e = n_ev n /\ is_train (f_state f) = n_train n /\ f_epoch f = n_ep n /\ (counts_steps E others ver -> ver w = (v0 + n_steps n)%nat).
Notation look := (watch h want).
Definition T (s : st (W * X) I P) : Prop :=
  let b := look o0 (s_tr s) in
  f_epoch (s_fp s) = o_ep b /\ is_train (f_state (s_fp s)) = o_train b /\ (counts_steps E others ver -> ver (fst (s_w s)) = (v0 + o_steps b)%nat) /\
  exists l, Forall2 agrees l (o_log b) /\ replay l x0 = (Ok tt, snd (s_w s)).
Definition Q (s : st (W * X) I P) : Prop :=
  exists l r, Forall2 agrees l (o_log (look o0 (s_tr s))) /\ replay l x0 = (r, snd (s_w s)).
Lemma T_Q s : T s -> Q s.
Proof. intros (_ & _ & _ & l & A & B). exists l, (Ok tt). auto. Qed.
Definition plain (i : item I P) : Prop := i <> SetTrain /\ i <> SetEval /\ (forall k e, i <> Call k e).
(* items that are not calls of interest leave the log as it is *)
Lemma log_same b (i : item I P) : (forall e, i = Call h e -> want e = false) -> o_log (watch1 h want b i) = o_log b.
Proof.
  intros H. destruct i as [n e| | | | | | | | | | | | | | |]; try reflexivity. cbn [watch1]. destruct (Nat.eqb_spec n h) as [->|N]; [|reflexivity].
  now rewrite (H e eq_refl).
Qed.
Lemma T_go s f w (i : item I P) :
  T s -> plain i -> f_epoch f = f_epoch (s_fp s) -> f_state f = f_state (s_fp s) -> snd w = snd (s_w s) ->
  (counts_steps E others ver -> ver (fst w) = (ver (fst (s_w s)) + if is_step i then 1 else 0)%nat) -> T (St f w (s_tr s ++ [i])).
Proof.
  intros (A & B & C & l & D1 & D2) (N1 & N2 & N3) Hf Hs Hx Hv. unfold T. cbn [s_fp s_w s_tr]. rewrite watch_snoc, Hf, Hs, Hx.
  set (b := look o0 (s_tr s)) in *.
  assert (L : o_ep (watch1 h want b i) = o_ep b /\ o_train (watch1 h want b i) = o_train b /\ o_steps (watch1 h want b i) = (o_steps b + if is_step i then 1 else 0)%nat).
  { destruct i; try (exfalso; eapply N3; reflexivity); try congruence; cbn; repeat split; auto; lia. }
  destruct L as (L2 & L3 & L4). rewrite log_same by (intros e ->; exfalso; eapply N3; reflexivity). rewrite L2, L3, L4.
  split; [exact A|]. split; [exact B|]. split; [|eauto]. intros HC. rewrite (Hv HC), (C HC). lia.
Qed.
Lemma T_same s f w : T s -> f_epoch f = f_epoch (s_fp s) -> f_state f = f_state (s_fp s) -> snd w = snd (s_w s) ->
  (counts_steps E others ver -> ver (fst w) = ver (fst (s_w s))) -> T (St f w (s_tr s)).
Proof.
  intros (A & B & C & D) Hf Hs Hx Hv. unfold T. cbn [s_fp s_w s_tr]. rewrite Hf, Hs, Hx. split; [exact A|]. split; [exact B|]. split; [|exact D].
  intros HC. rewrite (Hv HC). exact (C HC).
Qed.
Lemma Q_go s f w (i : item I P) : T s -> snd w = snd (s_w s) -> (forall e, i = Call h e -> want e = false) -> Q (St f w (s_tr s ++ [i])).
Proof. intros (A & B & C & l & D1 & D2) Hx Hi. exists l, (Ok tt). cbn [s_w s_tr]. rewrite Hx, watch_snoc, log_same by exact Hi. auto. Qed.
Lemma T_emit i : plain i -> is_step i = false -> pres T Q (@emit _ I P i).
Proof. intros Hp Hi s r s' [= <- <-] R. apply T_go; auto. intros _. rewrite Hi. lia. Qed.
Lemma lift_snd {A} (g : W -> res A * W) w (r : res A) (w' : W * X) : lift_o g w = (r, w') -> exists v, g (fst w) = (r, v) /\ w' = (v, snd w).
Proof. unfold lift_o. destruct (g (fst w)) as [q v]. intros [= <- <-]. eauto. Qed.
Lemma T_world {A} (g : W -> res A * W) :
  (counts_steps E others ver -> forall w a w', g w = (Ok a, w') -> ver w' = ver w) -> pres T Q (world (lift_o g) : M _ I P A).
Proof.
  intros Hv s r s'. unfold world. destruct (lift_o g (s_w s)) as [q w] eqn:Eg. intros [= <- <-] R.
  apply lift_snd in Eg as (v & Eg & ->). destruct q as [a|e].
  - apply T_same; auto; cbn [fst]; eauto.
  - apply T_Q in R as (l & r & R1 & R2). exists l, r. cbn [s_w s_tr snd]. auto.
Qed.
Lemma plain_call i : plain i -> forall e, i = Call h e -> want e = false.
Proof. intros (_ & _ & N) e ->. exfalso. eapply N. reflexivity. Qed.
Lemma T_act i g : op E i = Some g -> plain i -> pres T Q (act i (lift_o g)).
Proof.
  intros Ho Hp s r s'. unfold act, seqM, emit, world. cbn [s_fp s_w s_tr]. destruct (lift_o g (s_w s)) as [q w] eqn:Eg. intros [= <- <-] R.
  apply lift_snd in Eg as (v & Eg & ->). destruct q as [[]|e]; [|apply Q_go; [exact R|reflexivity|exact (plain_call i Hp)]].
  apply T_go; auto; cbn [fst]. intros (S1 & S2 & _). destruct (is_step i) eqn:Ei.
  - destruct i; try discriminate. injection Ho as <-. rewrite (S1 _ _ Eg). lia.
  - rewrite (S2 _ _ _ _ Ho Ei Eg). lia.
Qed.
Lemma T_modf g : (forall f, f_epoch (g f) = f_epoch f /\ f_state (g f) = f_state f) -> pres T Q (@modf _ I P g).
Proof. intros H s r s' [= <- <-] R. apply T_same; auto; apply H. Qed.
Lemma T_cb k e : In k cbs -> pres T Q (seqM (emit (Call k e)) (fun _ => run_cb E' k e)).
Proof.
  intros Hk s r s'. unfold seqM, emit, run_cb. cbn [s_fp s_w s_tr]. destruct (e_cb E' k e (s_fp s, s_w s)) as [q [f w]] eqn:Ec. intros [= <- <-] R.
  destruct s as [f0 [w0 x] tr]. cbn [s_fp s_w s_tr] in *. cbn [with_obs e_cb] in Ec.
  destruct (Nat.eqb_spec k h) as [->|N].
  - destruct (want e) eqn:We.
    + destruct R as (A & B & C & l & D1 & D2). cbn [s_fp s_w s_tr fst snd] in *. set (b := look o0 tr) in *.
      assert (F : Forall2 agrees (l ++ [(e, f0, w0)]) (o_log (look o0 (tr ++ [Call h e])))).
      { rewrite watch_snoc. fold b. cbn [watch1]. rewrite Nat.eqb_refl, We. cbn [andb o_log]. apply Forall2_app; [exact D1|]. constructor; [|constructor]. repeat split; auto. }
      destruct (cb e f0 w0 x) as [q' y] eqn:Ey. injection Ec as <- <- <-. destruct q' as [[]|z].
      * unfold T. cbn [s_fp s_w s_tr fst snd].
        assert (G : o_ep (look o0 (tr ++ [Call h e])) = o_ep b /\ o_train (look o0 (tr ++ [Call h e])) = o_train b /\ o_steps (look o0 (tr ++ [Call h e])) = o_steps b).
        { rewrite watch_snoc. fold b. cbn [watch1]. rewrite Nat.eqb_refl, We. cbn. auto. }
        destruct G as (-> & -> & ->). split; [exact A|]. split; [exact B|]. split; [exact C|]. exists (l ++ [(e, f0, w0)]). split; [exact F|]. rewrite replay_app, D2. cbn. now rewrite Ey.
      * exists (l ++ [(e, f0, w0)]), (Err z). split; [exact F|]. rewrite replay_app, D2. cbn. now rewrite Ey.
    + rewrite (Hcb _ _ _ _ We) in Ec. injection Ec as <- <- <-. destruct R as (A & B & C & D). unfold T. cbn [s_fp s_w s_tr fst snd] in *. rewrite watch_snoc. cbn [watch1].
      rewrite We, Bool.andb_false_r. auto.
  - destruct (e_cb E k e (f0, w0)) as [q' [g v]] eqn:Eo. injection Ec as <- <- <-.
    assert (Hi : forall e', @Call I P k e = Call h e' -> want e' = false) by (intros e' [= X1 _]; congruence).
    destruct q' as [[]|z]; [|exact (Q_go (St f0 (w0, x) tr) g (v, x) (Call k e) R eq_refl Hi)].
    pose proof (others_in k Hk N) as Ho. destruct (HT _ _ _ _ _ _ Ho Eo) as (T1 & T2 & _).
    destruct R as (A & B & C & D). unfold T. cbn [s_fp s_w s_tr fst snd] in *. rewrite watch_snoc, T1, T2. cbn [watch1]. apply Nat.eqb_neq in N. rewrite N. cbn [andb].
    split; [exact A|]. split; [exact B|]. split; [|exact D]. intros HC. rewrite <- (C HC). destruct HC as (_ & _ & S3 & _). exact (S3 _ _ _ _ _ _ Ho Eo).
Qed.
Lemma T_call e : pres T Q (call E' cbs e).
Proof. apply gen_call. intros k e' Hk. now apply T_cb. Qed.
Lemma plain_op i : op E i <> None -> i <> SetTrain -> i <> SetEval -> plain i.
Proof. intros H A B. split; [exact A|]. split; [exact B|]. intros k e ->. now apply H. Qed.
Lemma T_raise {A} e : pres T Q (@raise _ I P A e). Proof. intros s r s' [= <- <-]. apply T_Q. Qed.
Lemma T_act' i g g' : op E i = Some g -> g' = lift_o g -> plain i -> pres T Q (act i g').
Proof. intros A -> B. now apply T_act. Qed.
Ltac act_tac := eapply T_act'; [reflexivity|reflexivity|apply plain_op; discriminate].
Lemma T_update : pres T Q (update E' cbs).
Proof.
  unfold update. repeat first [ apply T_call | apply pres_getf | apply pres_ret | act_tac
    | apply pres_bind; [|intros ?] | match goal with |- pres _ _ (match ?x with _ => _ end) => destruct x end ].
Qed.
Lemma T_next d i : pres T Q (world (e_next E' d i)).
Proof. apply (@T_world I (e_next E d i)). intros (_ & _ & _ & H & _). eauto. Qed.
Lemma T_predict : pres T Q (world (e_predict E')).
Proof. apply (@T_world (option P) (e_predict E)). intros (_ & _ & _ & _ & H & _). eauto. Qed.
Lemma T_loss f p : e_loss E' = Some f -> pres T Q (world (f p)).
Proof.
  cbn [with_obs e_loss]. destruct (e_loss E) as [g|] eqn:El; [|discriminate]. intros [= <-]. apply (@T_world R (g p)).
  intros (_ & _ & _ & _ & _ & H & _) w a w'. now apply H.
Qed.
Lemma T_scan d : pres T Q (scan_volumes E' cbs d).
Proof.
  unfold scan_volumes. generalize 0%nat. generalize (e_len E' d). intros n. induction n as [|n IH]; intros i; cbn [scan_from]; [apply pres_ret|].
  unfold batch_begin, batch_end, scan_volume, mu_batch, add_loss, is_multiple, quotient, need.
  repeat first [ apply IH | apply T_update | apply T_call | apply pres_ret | apply pres_getf | apply T_raise | apply T_next | apply T_predict
    | (eapply T_loss; eassumption) | act_tac
    | (apply T_emit; [repeat split; discriminate|reflexivity]) | (apply T_modf; now intros f)
    | apply pres_bind; [|intros ?] | apply pres_each; intros ? ?
    | match goal with |- pres _ _ (match ?x with _ => _ end) => destruct x eqn:? end ].
Qed.
Lemma T_run d : pres T Q (run_epoch E' cbs d).
Proof. unfold run_epoch. repeat first [apply T_call | apply T_scan | apply pres_bind; [|intros ?]]. Qed.
(* volume.train(), volume.eval() and what is set with them *)
Lemma T_set s f w (tr : list (item I P)) b : T s -> snd w = snd (s_w s) -> f_epoch f = o_ep b -> is_train (f_state f) = o_train b -> b = look o0 tr ->
  o_log b = o_log (look o0 (s_tr s)) -> o_steps b = o_steps (look o0 (s_tr s)) ->
  (counts_steps E others ver -> ver (fst w) = ver (fst (s_w s))) -> T (St f w tr).
Proof.
  intros (A & B & C & D) Hx Hf Hs Hb L1 L2 Hv. unfold T. cbn [s_fp s_w s_tr]. rewrite <- Hb, L1, L2, Hx. split; [exact Hf|]. split; [exact Hs|]. split; [|exact D].
  intros HC. rewrite (Hv HC). exact (C HC).
Qed.
Lemma T_epoch validate : pres T Q (fit_epoch E' cbs validate).
Proof.
  intros s r s' H R. unfold fit_epoch in H. unfold seqM at 1 in H. unfold modf at 1 in H. unfold seqM at 1 in H.
  destruct (act SetTrain (e_train E') _) as [r1 s1] eqn:E1. unfold act, seqM, emit, world in E1. cbn [s_w s_fp s_tr] in E1.
  destruct (e_train E' (s_w s)) as [q w] eqn:Et. injection E1 as <- <-. apply lift_snd in Et as (v & Et & ->).
  destruct q as [[]|e]; [|injection H as <- <-; apply Q_go; [exact R|reflexivity|discriminate]].
  unfold seqM at 1 in H. unfold modf at 1 in H. cbn [s_w s_fp s_tr] in H.
  refine (pres_bind T Q _ _ (T_run _) _ _ _ _ H _).
  - intros _. destruct validate; [|apply pres_ret]. clear - HT Hcb. intros s r s' H R. unfold seqM at 1 in H.
    destruct (act SetEval (e_eval E') _) as [r1 s1] eqn:E1. unfold act, seqM, emit, world in E1. cbn [s_w s_fp s_tr] in E1.
    destruct (e_eval E' (s_w s)) as [q w] eqn:Et. injection E1 as <- <-. apply lift_snd in Et as (v & Et & ->).
    destruct q as [[]|e]; [|injection H as <- <-; apply Q_go; [exact R|reflexivity|discriminate]].
    unfold seqM at 1 in H. unfold modf at 1 in H. cbn [s_w s_fp s_tr] in H. refine (T_run _ _ _ _ H _).
    eapply (T_set s); [exact R|reflexivity| | |reflexivity|now rewrite watch_snoc|now rewrite watch_snoc|].
    + rewrite watch_snoc. cbn. apply R.
    + rewrite watch_snoc. reflexivity.
    + intros (_ & S2 & _). exact (S2 SetEval _ _ _ eq_refl eq_refl Et).
  - eapply (T_set s); [exact R|reflexivity| | |reflexivity|now rewrite watch_snoc|now rewrite watch_snoc|].
    + rewrite watch_snoc. cbn. f_equal. apply R.
    + rewrite watch_snoc. reflexivity.
    + intros (_ & S2 & _). exact (S2 SetTrain _ _ _ eq_refl eq_refl Et).
Qed.
Lemma T_epochs validate n : pres T Q (fit_epochs E' cbs validate n).
Proof.
  induction n as [|n IH]; cbn [fit_epochs]; [apply pres_ret|]. apply pres_bind; [apply T_epoch|intros _]. apply pres_bind; [apply pres_getf|intros stop].
  destruct stop; [apply pres_ret|exact IH].
Qed.
Lemma T_body validate : pres T Q (fit_body E' cbs validate).
Proof.
  unfold fit_body, need. repeat first [ apply T_call | apply T_epochs | apply pres_getf | apply pres_ret | apply T_raise
    | apply pres_bind; [|intros ?] | match goal with |- pres _ _ (match ?x with _ => _ end) => destruct x end ].
Qed.
End F.
Lemma filter_other h c1 c2 : ~ In h c1 -> ~ In h c2 -> filter (fun k => negb (Nat.eqb k h)) (c1 ++ h :: c2) = c1 ++ c2.
Proof.
  intros A B. assert (F : forall l, ~ In h l -> filter (fun k => negb (Nat.eqb k h)) l = l).
  { induction l as [|x l IH]; intros H; [reflexivity|]. cbn. destruct (Nat.eqb_spec x h) as [->|N]; [exfalso; apply H; now left|]. cbn. f_equal. apply IH. intros Hx. apply H. now right. }
  rewrite filter_app. cbn. rewrite Nat.eqb_refl. cbn. now rewrite !F.
Qed.
