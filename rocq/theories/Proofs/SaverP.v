(* EpochSave in a fit. *)
From Coq Require Import Lia.
From Verif Require Import Base.RUtil Model.Fit Model.Saver Spec.FitSpec Spec.SaverSpec Proofs.FitP Proofs.FitScan Proofs.FitAll Proofs.FitCount.
Open Scope list_scope.

(* ---- what can be read from a trace: epochs begun, whether in training, steps made, writes due (with the steps made before), whether the
   detector was left alone since the last of them ---- *)
Record walker := Wk { k_ep : nat; k_train : bool; k_steps : nat; k_log : list (nat * nat); k_clean : bool }.
Definition k0 : walker := Wk 0 false 0 [] false.
Definition is_end (e : event) : bool := match e with EpochEnd => true | _ => false end.
Section Walk.
Context {I P : Type}.
Variable h : nat.
Definition walk1 (k : walker) (i : item I P) : walker :=
  match i with
  | SetTrain => Wk (S (k_ep k)) true (k_steps k) (k_log k) (k_clean k)
  | SetEval => Wk (k_ep k) false (k_steps k) (k_log k) (k_clean k)
  | Step => Wk (k_ep k) (k_train k) (S (k_steps k)) (k_log k) false
  | Call n e => if (n =? h)%nat && is_end e && k_train k then Wk (k_ep k) (k_train k) (k_steps k) (k_log k ++ [(k_ep k, k_steps k)]) true
                else if @in_update I P (Call n e) then Wk (k_ep k) (k_train k) (k_steps k) (k_log k) false else k
  | ZeroGrad | Backward _ | Conform => Wk (k_ep k) (k_train k) (k_steps k) (k_log k) false
  | _ => k
  end.
Definition walk (k : walker) (l : list (item I P)) : walker := fold_left walk1 l k.
Lemma walk_app k l m : walk k (l ++ m) = walk (walk k l) m. Proof. apply fold_left_app. Qed.

(* nothing to see *)
Definition dull (i : item I P) : bool :=
  match i with SetTrain | SetEval | Step | ZeroGrad | Backward _ | Conform => false
  | Call _ e => negb (is_end e) && negb (@in_update I P i) | _ => true end.
Lemma walk_dull l : forallb dull l = true -> forall k, walk k l = k.
Proof.
  induction l as [|i l IH]; intros H k; [reflexivity|]. cbn [forallb] in H. apply andb_prop in H as [H1 H2]. unfold walk. cbn [fold_left].
  replace (walk1 k i) with k; [exact (IH H2 k)|]. destruct i as [n e| | | | | | | | | | | | | | |]; try reflexivity; try discriminate.
  cbn [dull] in H1. apply andb_prop in H1 as [A B]. cbn [walk1]. destruct (is_end e); [discriminate|]. rewrite Bool.andb_false_r. cbn [andb].
  destruct (in_update _); [discriminate|reflexivity].
Qed.
Lemma dull_on c e : is_end e = false -> @in_update I P (Call 0 e) = false -> forallb dull (on c e) = true.
Proof. intros A B. unfold on. apply forallb_forall. intros x Hx. apply in_map_iff in Hx as [k [<- _]]. cbn [dull]. rewrite A. cbn [in_update] in *. now rewrite B. Qed.
Lemma forallb_concat {A} (f : A -> bool) ls : (forall l, In l ls -> forallb f l = true) -> forallb f (concat ls) = true.
Proof. induction ls as [|l ls IH]; intros H; [reflexivity|]. cbn. rewrite forallb_app, (H l) by now left. apply IH. intros x Hx. apply H. now right. Qed.
Lemma dull_vol c (v : vol I P) : forallb dull (doc_vol c v) = true.
Proof.
  unfold doc_vol. rewrite !forallb_app, !dull_on by reflexivity. rewrite forallb_concat.
  - now destruct (v_loss v).
  - intros l Hl. apply repeat_spec in Hl as ->. unfold doc_mu. now rewrite !forallb_app, !dull_on by reflexivity.
Qed.
Lemma dull_vols c (vs : list (vol I P)) : forallb dull (flat_map (doc_vol c) vs) = true.
Proof. rewrite flat_map_concat_map. apply forallb_concat. intros l Hl. apply in_map_iff in Hl as [v [<- _]]. apply dull_vol. Qed.
Lemma dull_scan c s : forallb dull (@doc_scan I P c false true s) = true.
Proof.
  unfold doc_scan. rewrite forallb_app. apply andb_true_intro. split.
  - rewrite flat_map_concat_map. apply forallb_concat. intros l Hl. apply in_map_iff in Hl as [vs [<- _]]. unfold doc_batch, doc_end.
    now rewrite !forallb_app, !dull_on, dull_vols by reflexivity.
  - destruct (sc_rest s); [reflexivity|]. now rewrite forallb_app, dull_on, dull_vols by reflexivity.
Qed.
Lemma scan_false c b s : @doc_scan I P c false b s = doc_scan c false true s. Proof. reflexivity. Qed.

(* callbacks in the update leave everything but the last mark *)
Definition upd (n : nat) (k k' : walker) : Prop :=
  k_ep k' = k_ep k /\ k_train k' = k_train k /\ k_steps k' = (k_steps k + n)%nat /\ k_log k' = k_log k.
Lemma upd_trans n m a b c : upd n a b -> upd m b c -> upd (n + m) a c.
Proof. intros (A1 & A2 & A3 & A4) (B1 & B2 & B3 & B4). unfold upd. rewrite B1, B2, B3, B4, A1, A2, A3, A4. repeat split; auto. lia. Qed.
Lemma upd_refl k : upd 0 k k. Proof. unfold upd. repeat split; auto. Qed.
Lemma upd_on c e : is_end e = false -> forall k, upd 0 k (walk k (on c e)).
Proof.
  intros He. unfold on. induction (c_cbs c) as [|n l IH]; intros k; [apply upd_refl|]. cbn [map]. unfold walk. cbn [fold_left].
  change 0%nat with (0 + 0)%nat. eapply upd_trans; [|apply IH]. cbn [walk1]. rewrite He, Bool.andb_false_r. cbn [andb].
  destruct (in_update _); unfold upd; cbn; repeat split; auto; lia.
Qed.
Lemma upd_update c (skip : bool) (m : option R) k : upd (if skip then 0 else match m with Some _ => 1 | None => 0 end) k (walk k (@doc_update I P c skip m)).
Proof.
  unfold doc_update. rewrite !walk_app.
  set (a1 := walk k [ZeroGrad]). set (a2 := walk a1 (on c BackwardsBegin)). set (a3 := walk a2 (match m with Some l => _ | None => _ end)).
  set (a4 := walk a3 (on c BackwardsEnd)). set (a5 := walk a4 (if skip then _ else _)). set (a6 := walk a5 (on c StepEnd)).
  pose proof (upd_on c BackwardsBegin eq_refl a1) as (A1 & A2 & A3 & A4). fold a2 in A1, A2, A3, A4.
  pose proof (upd_on c BackwardsEnd eq_refl a3) as (B1 & B2 & B3 & B4). fold a4 in B1, B2, B3, B4.
  pose proof (upd_on c StepEnd eq_refl a5) as (D1 & D2 & D3 & D4). fold a6 in D1, D2, D3, D4.
  assert (C3 : upd 0 a2 a3) by (unfold a3; clear; destruct m; unfold upd; cbn; repeat split; auto; lia). destruct C3 as (E1 & E2 & E3 & E4).
  assert (C5 : upd (if skip then 0 else match m with Some _ => 1 | None => 0 end) a4 a5).
  { unfold a5. clearbody a4. clear. destruct skip, m; unfold upd; cbn; repeat split; auto; lia. }
  destruct C5 as (F1 & F2 & F3 & F4). unfold upd, walk. cbn [fold_left walk1 k_ep k_train k_steps k_log]. clearbody a2 a3 a4 a5 a6. unfold a1 in *. cbn in A1, A2, A3, A4.
  repeat split; [congruence|congruence|lia|congruence].
Qed.
Lemma upd_batches c (skip : bool) (bs : list (list (vol I P))) : forall k,
  upd (if skip then 0 else list_sum (map has_mean bs)) k (walk k (flat_map (doc_batch c true skip) bs)).
Proof.
  induction bs as [|vs bs IH]; intros k; [destruct skip; apply upd_refl|]. cbn [flat_map map]. rewrite walk_app.
  replace (if skip then 0 else list_sum (has_mean vs :: map has_mean bs))%nat
    with ((if skip then 0 else has_mean vs) + (if skip then 0 else list_sum (map has_mean bs)))%nat by (destruct skip; reflexivity).
  eapply upd_trans; [|apply IH]. unfold doc_batch, doc_end. rewrite !walk_app.
  rewrite !walk_dull with (l := on c _) by (now apply dull_on). rewrite (walk_dull (flat_map _ _)) by apply dull_vols.
  rewrite (walk_dull [Mean _]) by reflexivity. replace (has_mean vs) with (match mean_loss c vs with Some _ => 1 | None => 0 end)%nat; [apply upd_update|].
  unfold mean_loss, has_mean. now destruct (losses vs).
Qed.
Lemma upd_scan c (skip : bool) s k : upd (if skip then 0 else list_sum (map has_mean (sc_batches s))) k (walk k (@doc_scan I P c true skip s)).
Proof.
  unfold doc_scan. rewrite walk_app. rewrite (walk_dull (match sc_rest s with [] => _ | _ => _ end)); [apply upd_batches|].
  destruct (sc_rest s); [reflexivity|]. now rewrite forallb_app, dull_on, dull_vols by reflexivity.
Qed.
Lemma walk_ends_out k l : ~ In h l -> walk k (map (fun n => Call n EpochEnd) l) = k.
Proof.
  induction l as [|n l IH]; intros H; [reflexivity|]. cbn [map]. unfold walk. cbn [fold_left walk1]. destruct (Nat.eqb_spec n h) as [->|N]; [exfalso; apply H; now left|].
  cbn [andb in_update]. apply IH. intros Hi. apply H. now right.
Qed.
Lemma walk_ends_off k l : k_train k = false -> walk k (map (fun n => Call n EpochEnd) l) = k.
Proof.
  intros T. induction l as [|n l IH]; [reflexivity|]. cbn [map]. unfold walk. cbn [fold_left walk1]. rewrite T, Bool.andb_false_r. exact IH.
Qed.
Variable c : cfg.
Variables c1 c2 : list nat.
Hypothesis Hc : c_cbs c = c1 ++ h :: c2.
Hypothesis H1 : ~ In h c1.
Hypothesis H2 : ~ In h c2.
Lemma walk_end k : walk k (on c EpochEnd) = if k_train k then Wk (k_ep k) true (k_steps k) (k_log k ++ [(k_ep k, k_steps k)]) true else k.
Proof.
  unfold on. destruct (k_train k) eqn:T; [|now apply walk_ends_off].
  rewrite Hc, map_app, walk_app, (walk_ends_out k c1 H1). cbn [map]. change (?a :: ?l) with ([a] ++ l). rewrite walk_app.
  replace (walk k [Call h EpochEnd]) with (Wk (k_ep k) true (k_steps k) (k_log k ++ [(k_ep k, k_steps k)]) true); [now apply walk_ends_out|].
  unfold walk. cbn [fold_left walk1 is_end]. now rewrite Nat.eqb_refl, T.
Qed.
Lemma walk_epoch x k : exists t,
  walk k (@doc_epoch I P c x) = Wk (S (k_ep k)) t (k_steps k + steps_in x) (k_log k ++ [(S (k_ep k), (k_steps k + steps_in x)%nat)]) true.
Proof.
  unfold doc_epoch, doc_run.
  assert (A : walk k ([SetTrain] ++ on c EpochBegin ++ doc_scan c true (ep_skip x) (ep_train x) ++ on c EpochEnd) =
    Wk (S (k_ep k)) true (k_steps k + steps_in x) (k_log k ++ [(S (k_ep k), (k_steps k + steps_in x)%nat)]) true).
  { rewrite !walk_app. rewrite (walk_dull (on c EpochBegin)) by now apply dull_on.
    destruct (upd_scan c (ep_skip x) (ep_train x) (walk k [SetTrain])) as (U1 & U2 & U3 & U4). rewrite walk_end, U1, U2, U3, U4. reflexivity. }
  rewrite app_assoc, walk_app, A. destruct (ep_valid x) as [v|]; [|eexists; reflexivity]. exists false. rewrite !walk_app.
  rewrite (walk_dull (on c EpochBegin)) by now apply dull_on. rewrite scan_false, (walk_dull (doc_scan _ _ _ _)) by apply dull_scan.
  rewrite walk_end. reflexivity.
Qed.
(* the writes due after the epochs xs *)
Definition due (e st : nat) (xs : list (epoch I P)) : list (nat * nat) :=
  map (fun i => (e + i, st + list_sum (map steps_in (firstn i xs)))%nat) (seq 1 (length xs)).
Lemma due_cons e st x xs : due e st (x :: xs) = (S e, st + steps_in x)%nat :: due (S e) (st + steps_in x) xs.
Proof.
  unfold due. cbn [length seq map]. f_equal.
  - cbn. f_equal; lia.
  - rewrite <- seq_shift, map_map. apply map_ext. intros i. cbn [firstn map]. f_equal; [lia|]. cbn [list_sum fold_right]. unfold list_sum. cbn. lia.
Qed.
Lemma walk_epochs xs : forall k, exists t,
  walk k (flat_map (@doc_epoch I P c) xs) =
    Wk (k_ep k + length xs) t (k_steps k + list_sum (map steps_in xs)) (k_log k ++ due (k_ep k) (k_steps k) xs) (match xs with [] => k_clean k | _ => true end).
Proof.
  induction xs as [|x xs IH]; intros k.
  - exists (k_train k). cbn. rewrite app_nil_r. destruct k; cbn. f_equal; lia.
  - cbn [flat_map]. rewrite walk_app. destruct (walk_epoch x k) as [t ->]. edestruct IH as [t' ->]. exists t'. cbn [k_ep k_steps k_log k_clean].
    rewrite due_cons, <- app_assoc. cbn [app length map]. f_equal; [lia| |now destruct xs]. unfold list_sum. cbn. fold (list_sum (map steps_in xs)). lia.
Qed.
Lemma walk_fit xs : exists t, walk k0 (@doc_fit I P c xs) =
  Wk (length xs) t (list_sum (map steps_in xs)) (due 0 0 xs) (match xs with [] => false | _ => true end).
Proof.
  unfold doc_fit. rewrite !walk_app, !(walk_dull (on c _)) by now apply dull_on. destruct (walk_epochs xs k0) as [t ->]. exists t. reflexivity.
Qed.
End Walk.

(* ---- the files follow the trace ---- *)
Section F.
Context {W I P D : Type}.
Variable snap : W -> D.
Variable can : nat -> W -> res unit.
Variable E : env W I P.
Variable h : nat.
Variable cbs : list nat.
Notation others := (filter (fun k => negb (Nat.eqb k h)) cbs).
Hypothesis HT : tame E others.
Notation E' := (with_saver snap can E h).
Variable rd : D -> nat.
Variable v0 : nat.
Variable fs0 : list (nat * D).
Notation ver := (fun w => rd (snap w)).
Lemma others_in k : In k cbs -> k <> h -> In k others.
Proof. intros H N. apply filter_In. split; [exact H|]. now apply Nat.eqb_neq in N as ->. Qed.
Lemma tame_saver : tame E' cbs.
Proof.
  intros k e f [w fs] f' [w' fs'] Hk H. cbn in H. destruct (Nat.eqb_spec k h) as [->|N].
  - unfold saver_cb in H. assert (f' = f) as ->; [|tauto].
    destruct e; try (injection H as <- _ _; reflexivity). destruct (is_train (f_state f)); [|injection H as <- _ _; reflexivity].
    destruct (can (f_epoch f) w); [injection H as <- _ _; reflexivity|discriminate].
  - destruct (e_cb E k e (f, w)) as [r [g v]] eqn:Ec. injection H as -> -> -> _. exact (HT _ _ _ _ _ _ (others_in k Hk N) Ec).
Qed.

Definition T (s : st (W * list (nat * D)) I P) : Prop :=
  let b := walk h k0 (s_tr s) in
  f_epoch (s_fp s) = k_ep b /\ is_train (f_state (s_fp s)) = k_train b /\
  exists new, snd (s_w s) = fs0 ++ new /\ map fst new = map fst (k_log b) /\
    (counts_steps E others ver -> ver (fst (s_w s)) = (v0 + k_steps b)%nat /\ map (fun x => rd (snd x)) new = map (fun x => v0 + snd x)%nat (k_log b)) /\
    (changes_in_update E others snap -> k_clean b = true -> exists l k, new = l ++ [(k, snap (fst (s_w s)))]).
Definition Q (s : st (W * list (nat * D)) I P) : Prop :=
  let b := walk h k0 (s_tr s) in
  exists new, snd (s_w s) = fs0 ++ new /\ (map fst (k_log b) = map fst new \/ map fst (k_log b) = map fst new ++ [k_ep b]).
Lemma T_Q s : T s -> Q s.
Proof. intros (_ & _ & new & A & B & _). exists new. auto. Qed.
(* items that are not calls of the saver leave the log as it is *)
Lemma walk_snoc l (i : item I P) : walk h k0 (l ++ [i]) = walk1 h (walk h k0 l) i.
Proof. now rewrite walk_app. Qed.

(* a step: the parameters keep epoch and state, the files stay, the item i is added *)
Definition plain (i : item I P) : Prop := i <> SetTrain /\ i <> SetEval /\ (forall k e, i <> Call k e).
Lemma T_go s f w (i : item I P) :
  T s -> plain i -> f_epoch f = f_epoch (s_fp s) -> f_state f = f_state (s_fp s) -> snd w = snd (s_w s) ->
  (counts_steps E others ver -> ver (fst w) = (ver (fst (s_w s)) + if is_step i then 1 else 0)%nat) ->
  (changes_in_update E others snap -> in_update i = false -> snap (fst w) = snap (fst (s_w s))) ->
  T (St f w (s_tr s ++ [i])).
Proof.
  intros (A & B & new & C1 & C2 & C3 & C4) (N1 & N2 & N3) Hf Hs Hw Hv Hc. unfold T. cbn [s_fp s_w s_tr]. rewrite walk_snoc, Hf, Hs, Hw.
  set (b := walk h k0 (s_tr s)) in *.
  assert (L : k_log (walk1 h b i) = k_log b /\ k_ep (walk1 h b i) = k_ep b /\ k_train (walk1 h b i) = k_train b /\
              k_steps (walk1 h b i) = (k_steps b + if is_step i then 1 else 0)%nat /\
              k_clean (walk1 h b i) = if in_update i then false else k_clean b).
  { destruct i; try (exfalso; eapply N3; reflexivity); try congruence; cbn; repeat split; auto; lia. }
  destruct L as (L1 & L2 & L3 & L4 & L5). rewrite L1, L2, L3, L4, L5. split; [exact A|]. split; [exact B|]. exists new. split; [exact C1|]. split; [exact C2|]. split.
  - intros HC. destruct (C3 HC) as [V1 V2]. split; [|exact V2]. rewrite (Hv HC). cbn beta in V1. rewrite V1. lia.
  - intros HU K. destruct (in_update i) eqn:Ei; [discriminate|]. rewrite (Hc HU eq_refl). exact (C4 HU K).
Qed.
Lemma T_same s f w : T s -> f_epoch f = f_epoch (s_fp s) -> f_state f = f_state (s_fp s) -> snd w = snd (s_w s) ->
  (counts_steps E others ver -> ver (fst w) = ver (fst (s_w s))) -> (changes_in_update E others snap -> snap (fst w) = snap (fst (s_w s))) ->
  T (St f w (s_tr s)).
Proof.
  intros (A & B & new & C1 & C2 & C3 & C4) Hf Hs Hw Hv Hc. unfold T. cbn [s_fp s_w s_tr]. rewrite Hf, Hs, Hw. split; [exact A|]. split; [exact B|].
  exists new. split; [exact C1|]. split; [exact C2|]. split.
  - intros HC. rewrite (Hv HC). exact (C3 HC).
  - intros HU K. rewrite (Hc HU). exact (C4 HU K).
Qed.
Lemma Q_go s f w (i : item I P) : T s -> snd w = snd (s_w s) -> Q (St f w (s_tr s ++ [i])).
Proof.
  intros (A & B & new & C1 & C2 & _) Hw. exists new. cbn [s_w s_tr]. rewrite Hw. split; [exact C1|]. rewrite walk_snoc. set (b := walk h k0 (s_tr s)) in *.
  destruct i as [n e| | | | | | | | | | | | | | |]; try (left; now rewrite C2). cbn [walk1]. destruct (_ && _ && _).
  - right. cbn. now rewrite map_app, C2.
  - left. destruct (in_update _); now rewrite C2.
Qed.
Lemma T_emit i : plain i -> in_update i = false -> pres T Q (@emit _ I P i).
Proof.
  intros Hp Hi s r s' [= <- <-] R. apply T_go; auto. intros _. destruct i; cbn in *; try discriminate; lia.
Qed.
Lemma lift_snd {A} (g : W -> res A * W) w (r : res A) (w' : W * list (nat * D)) :
  lift_f g w = (r, w') -> exists v, g (fst w) = (r, v) /\ w' = (v, snd w).
Proof. unfold lift_f. destruct (g (fst w)) as [q v]. intros [= <- <-]. eauto. Qed.
Lemma T_world {A} (g : W -> res A * W) :
  (counts_steps E others ver -> forall w a w', g w = (Ok a, w') -> ver w' = ver w) ->
  (changes_in_update E others snap -> forall w a w', g w = (Ok a, w') -> snap w' = snap w) ->
  pres T Q (world (lift_f g) : M _ I P A).
Proof.
  intros Hv Hc s r s'. unfold world. destruct (lift_f g (s_w s)) as [q w] eqn:Eg. intros [= <- <-] R.
  apply lift_snd in Eg as (v & Eg & ->). destruct q as [a|e].
  - apply T_same; auto; cbn [fst]; eauto.
  - apply T_Q in R as (new & R1 & R2). exists new. cbn [s_w s_tr snd]. auto.
Qed.
Lemma T_act i g : op E i = Some g -> plain i -> pres T Q (act i (lift_f g)).
Proof.
  intros Ho Hp s r s'. unfold act, seqM, emit, world. cbn [s_fp s_w s_tr]. destruct (lift_f g (s_w s)) as [q w] eqn:Eg. intros [= <- <-] R.
  apply lift_snd in Eg as (v & Eg & ->). destruct q as [[]|e]; [|now apply Q_go].
  apply T_go; auto; cbn [fst].
  - intros (S1 & S2 & _). destruct (is_step i) eqn:Ei.
    + destruct i; try discriminate. injection Ho as <-. rewrite (S1 _ _ Eg). lia.
    + rewrite (S2 _ _ _ _ Ho Ei Eg). lia.
  - intros (S1 & _) Ei. exact (S1 _ _ _ _ Ho Ei Eg).
Qed.
Lemma T_modf g : (forall f, f_epoch (g f) = f_epoch f /\ f_state (g f) = f_state f) -> pres T Q (@modf _ I P g).
Proof. intros H s r s' [= <- <-] R. apply T_same; auto; apply H. Qed.
Lemma T_cb k e : In k cbs -> pres T Q (seqM (emit (Call k e)) (fun _ => run_cb E' k e)).
Proof.
  intros Hk s r s'. unfold seqM, emit, run_cb. cbn [s_fp s_w s_tr]. destruct (e_cb E' k e (s_fp s, s_w s)) as [q [f w]] eqn:Ec. intros [= <- <-] R.
  destruct (Nat.eqb_spec k h) as [->|N].
  - cbn [with_saver e_cb] in Ec. rewrite Nat.eqb_refl in Ec. destruct s as [f0 [w0 fs] tr]. cbn [s_fp s_w s_tr] in *. unfold saver_cb in Ec.
    assert (Hn : is_end e = false -> T (St f0 (w0, fs) (tr ++ [Call h e]))).
    { intros He. destruct R as (A & B & new & C1 & C2 & C3 & C4). unfold T. cbn [s_fp s_w s_tr] in *. rewrite walk_snoc. cbn [walk1].
      rewrite He, Bool.andb_false_r. cbn [andb]. set (b := walk h k0 tr) in *.
      destruct (in_update (Call h e)); [|now eauto 10]. cbn [k_ep k_train k_steps k_log k_clean].
      split; [exact A|]. split; [exact B|]. exists new. split; [exact C1|]. split; [exact C2|]. split; [exact C3|discriminate]. }
    assert (Hend : is_end e = true \/ is_end e = false) by (destruct (is_end e); auto).
    destruct Hend as [He|He].
    + destruct e; try discriminate. destruct (is_train (f_state f0)) eqn:Tr.
      * destruct (can (f_epoch f0) w0) as [[]|x].
        -- injection Ec as <- <- <-. destruct R as (A & B & new & C1 & C2 & C3 & C4). unfold T. cbn [s_fp s_w s_tr snd fst] in *. rewrite walk_snoc. cbn [walk1 is_end].
           set (b := walk h k0 tr) in *. rewrite Nat.eqb_refl, <- B, Tr. cbn [andb k_ep k_train k_steps k_log k_clean].
           split; [exact A|]. split; [reflexivity|]. exists (new ++ [(f_epoch f0, snap w0)]). split; [rewrite C1; now rewrite <- app_assoc|]. split; [|split].
           ++ rewrite !map_app, C2. cbn. now rewrite A.
           ++ intros HC. destruct (C3 HC) as [V1 V2]. split; [exact V1|]. rewrite !map_app, V2. cbn. cbn beta in V1. now rewrite V1.
           ++ intros _ _. eauto.
        -- injection Ec as <- <- <-. exact (Q_go (St f0 (w0, fs) tr) f0 (w0, fs) (Call h EpochEnd) R eq_refl).
      * injection Ec as <- <- <-. destruct R as (A & B & new & C1 & C2 & C3 & C4). unfold T. cbn [s_fp s_w s_tr] in *. rewrite walk_snoc. cbn [walk1].
        set (b := walk h k0 tr) in *. assert (Hb : k_train b = false) by congruence. rewrite Hb, Bool.andb_false_r. cbn [in_update].
        exact (conj A (conj B (ex_intro _ new (conj C1 (conj C2 (conj C3 C4)))))).
    + assert (q = Ok tt /\ f = f0 /\ w = (w0, fs)) as (-> & -> & ->).
      { destruct e; try discriminate He; injection Ec as <- <- <-; auto. }
      now apply Hn.
  - destruct s as [f0 [w0 fs] tr]. cbn [s_fp s_w s_tr] in *. cbn [with_saver e_cb] in Ec. pose proof N as Nb. apply Nat.eqb_neq in Nb. rewrite Nb in Ec.
    destruct (e_cb E k e (f0, w0)) as [q' [g v]] eqn:Eo. injection Ec as <- <- <-. destruct q' as [[]|x]; [|exact (Q_go (St f0 (w0, fs) tr) g (v, fs) (Call k e) R eq_refl)].
    pose proof (others_in k Hk N) as Ho. destruct (HT _ _ _ _ _ _ Ho Eo) as (T1 & T2 & _).
    destruct R as (A & B & new & C1 & C2 & C3 & C4). unfold T. cbn [s_fp s_w s_tr fst snd] in *. rewrite walk_snoc, T1, T2. cbn [walk1]. rewrite Nb. cbn [andb].
    set (b := walk h k0 tr) in *.
    assert (V : counts_steps E others ver -> ver v = ver w0) by (intros (_ & _ & S3 & _); exact (S3 _ _ _ _ _ _ Ho Eo)).
    destruct (in_update (Call k e)) eqn:Ei; cbn [k_ep k_train k_steps k_log k_clean].
    + split; [exact A|]. split; [exact B|]. exists new. split; [exact C1|]. split; [exact C2|]. split; [|discriminate].
      intros HC. cbn beta in V. rewrite (V HC). exact (C3 HC).
    + split; [exact A|]. split; [exact B|]. exists new. split; [exact C1|]. split; [exact C2|]. split.
      * intros HC. cbn beta in V. rewrite (V HC). exact (C3 HC).
      * intros HU K. destruct HU as (U1 & U2 & U3). rewrite (U2 _ _ _ _ _ _ Ho Ei Eo). exact (C4 (conj U1 (conj U2 U3)) K).
Qed.
Lemma T_call e : pres T Q (call E' cbs e).
Proof. apply gen_call. intros k e' Hk. now apply T_cb. Qed.
Lemma plain_op i : op E i <> None -> i <> SetTrain -> i <> SetEval -> plain i.
Proof. intros H A B. split; [exact A|]. split; [exact B|]. intros k e ->. now apply H. Qed.
Lemma T_raise {A} e : pres T Q (@raise _ I P A e). Proof. intros s r s' [= <- <-]. apply T_Q. Qed.
Lemma T_act' i g g' : op E i = Some g -> g' = lift_f g -> plain i -> pres T Q (act i g').
Proof. intros A -> B. now apply T_act. Qed.
Ltac act_tac := eapply T_act'; [reflexivity|reflexivity|apply plain_op; discriminate].
Lemma T_update : pres T Q (update E' cbs).
Proof.
  unfold update. repeat first [ apply T_call | apply pres_getf | apply pres_ret | act_tac
    | apply pres_bind; [|intros ?] | match goal with |- pres _ _ (match ?x with _ => _ end) => destruct x end ].
Qed.
Lemma T_next d i : pres T Q (world (e_next E' d i)).
Proof. apply (@T_world I (e_next E d i)); [intros (_ & _ & _ & H & _)|intros (_ & _ & H & _)]; eauto. Qed.
Lemma T_predict : pres T Q (world (e_predict E')).
Proof. apply (@T_world (option P) (e_predict E)); [intros (_ & _ & _ & _ & H & _)|intros (_ & _ & _ & H & _)]; eauto. Qed.
Lemma T_loss f p : e_loss E' = Some f -> pres T Q (world (f p)).
Proof.
  cbn [with_saver e_loss]. destruct (e_loss E) as [g|] eqn:El; [|discriminate]. intros [= <-]. apply (@T_world R (g p)).
  - intros (_ & _ & _ & _ & _ & H & _) w a w'. now apply H.
  - intros (_ & _ & _ & _ & H) w a w'. now apply H.
Qed.
Lemma T_scan d : pres T Q (scan_volumes E' cbs d).
Proof.
  unfold scan_volumes. generalize 0%nat. generalize (e_len E' d). intros n. induction n as [|n IH]; intros i; cbn [scan_from]; [apply pres_ret|].
  unfold batch_begin, batch_end, scan_volume, mu_batch, add_loss, is_multiple, quotient, need.
  repeat first [ apply IH | apply T_update | apply T_call | apply pres_ret | apply pres_getf | apply T_raise | apply T_next | apply T_predict
    | (eapply T_loss; eassumption) | act_tac
    | (apply T_emit; [repeat split; discriminate|reflexivity]) | (apply T_modf; now intros f)
    | apply pres_bind; [|intros ?] | apply pres_each; intros ? ?
    | match goal with |- pres _ _ (match ?x with _ => _ end) => destruct x eqn:? end ].
Qed.
Lemma T_run d : pres T Q (run_epoch E' cbs d).
Proof. unfold run_epoch. repeat first [apply T_call | apply T_scan | apply pres_bind; [|intros ?]]. Qed.
(* volume.train(), volume.eval() and what is set with them *)
Lemma T_set s f w (tr : list (item I P)) b : T s -> snd w = snd (s_w s) -> f_epoch f = k_ep b -> is_train (f_state f) = k_train b -> b = walk h k0 tr ->
  k_log b = k_log (walk h k0 (s_tr s)) -> k_steps b = k_steps (walk h k0 (s_tr s)) -> k_clean b = k_clean (walk h k0 (s_tr s)) ->
  (counts_steps E others ver -> ver (fst w) = ver (fst (s_w s))) -> (changes_in_update E others snap -> snap (fst w) = snap (fst (s_w s))) -> T (St f w tr).
Proof.
  intros (A & B & new & C1 & C2 & C3 & C4) Hw Hf Hs Hb L1 L2 L3 Hv Hc. unfold T. cbn [s_fp s_w s_tr]. rewrite <- Hb, L1, L2, L3, Hw. split; [exact Hf|]. split; [exact Hs|].
  exists new. split; [exact C1|]. split; [exact C2|]. split.
  - intros HC. rewrite (Hv HC). exact (C3 HC).
  - intros HU K. rewrite (Hc HU). exact (C4 HU K).
Qed.
Lemma T_epoch validate : pres T Q (fit_epoch E' cbs validate).
Proof.
  intros s r s' H R. unfold fit_epoch in H. unfold seqM at 1 in H. unfold modf at 1 in H. unfold seqM at 1 in H.
  destruct (act SetTrain (e_train E') _) as [r1 s1] eqn:E1. unfold act, seqM, emit, world in E1. cbn [s_w s_fp s_tr] in E1.
  destruct (e_train E' (s_w s)) as [q w] eqn:Et. injection E1 as <- <-. apply lift_snd in Et as (v & Et & ->).
  destruct q as [[]|e]; [|injection H as <- <-; apply Q_go; [exact R|reflexivity]].
  unfold seqM at 1 in H. unfold modf at 1 in H. cbn [s_w s_fp s_tr] in H.
  refine (pres_bind T Q _ _ (T_run _) _ _ _ _ H _).
  - intros _. destruct validate; [|apply pres_ret]. clear - HT. intros s r s' H R. unfold seqM at 1 in H.
    destruct (act SetEval (e_eval E') _) as [r1 s1] eqn:E1. unfold act, seqM, emit, world in E1. cbn [s_w s_fp s_tr] in E1.
    destruct (e_eval E' (s_w s)) as [q w] eqn:Et. injection E1 as <- <-. apply lift_snd in Et as (v & Et & ->).
    destruct q as [[]|e]; [|injection H as <- <-; apply Q_go; [exact R|reflexivity]].
    unfold seqM at 1 in H. unfold modf at 1 in H. cbn [s_w s_fp s_tr] in H. refine (T_run _ _ _ _ H _).
    eapply (T_set s); [exact R|reflexivity| | |reflexivity|now rewrite walk_snoc|now rewrite walk_snoc|now rewrite walk_snoc| |].
    + rewrite walk_snoc. cbn. apply R.
    + rewrite walk_snoc. reflexivity.
    + intros (_ & S2 & _). exact (S2 SetEval _ _ _ eq_refl eq_refl Et).
    + intros (S1 & _). exact (S1 SetEval _ _ _ eq_refl eq_refl Et).
  - eapply (T_set s); [exact R|reflexivity| | |reflexivity|now rewrite walk_snoc|now rewrite walk_snoc|now rewrite walk_snoc| |].
    + rewrite walk_snoc. cbn. f_equal. apply R.
    + rewrite walk_snoc. reflexivity.
    + intros (_ & S2 & _). exact (S2 SetTrain _ _ _ eq_refl eq_refl Et).
    + intros (S1 & _). exact (S1 SetTrain _ _ _ eq_refl eq_refl Et).
Qed.
Lemma T_epochs validate n : pres T Q (fit_epochs E' cbs validate n).
Proof.
  induction n as [|n IH]; cbn [fit_epochs]; [apply pres_ret|]. apply pres_bind; [apply T_epoch|intros _]. apply pres_bind; [apply pres_getf|intros stop].
  destruct stop; [apply pres_ret|exact IH].
Qed.
Lemma T_body validate : pres T Q (fit_body E' cbs validate).
Proof.
  unfold fit_body, need. repeat first [ apply T_call | apply T_epochs | apply pres_getf | apply pres_ret | apply T_raise
    | apply pres_bind; [|intros ?] | match goal with |- pres _ _ (match ?x with _ => _ end) => destruct x end ].
Qed.
End F.

(* ---- traces that end early ---- *)
Section Early.
Context {I P : Type}.
Variable h : nat.
Lemma walk_ep (l : list (item I P)) : forall k, k_ep (walk h k l) = (k_ep k + count is_begin l)%nat.
Proof.
  induction l as [|i l IH]; intros k; [cbn; lia|]. unfold walk. cbn [fold_left]. change (fold_left (walk1 h) l) with (fun k => walk h k l). cbn beta. rewrite IH.
  unfold count. cbn [filter]. destruct i as [n e| | | | | | | | | | | | | | |]; cbn [walk1 is_begin k_ep length]; try lia.
  destruct (_ && _ && _); [cbn; lia|]. destruct (in_update _); cbn; lia.
Qed.
Lemma walk_log (l : list (item I P)) : forall k, exists m, k_log (walk h k l) = k_log k ++ m.
Proof.
  induction l as [|i l IH]; intros k; [exists []; cbn; now rewrite app_nil_r|]. unfold walk. cbn [fold_left]. change (fold_left (walk1 h) l) with (fun k => walk h k l). cbn beta.
  destruct (IH (walk1 h k i)) as [m ->]. destruct i as [n e| | | | | | | | | | | | | | |]; try (exists m; reflexivity). cbn [walk1].
  destruct (_ && _ && _); [eexists; cbn; rewrite <- app_assoc; reflexivity|]. destruct (in_update _); exists m; reflexivity.
Qed.
Lemma skel_walk (l : list (item I P)) : forall k k', k_ep k' = k_ep k -> k_train k' = k_train k -> map fst (k_log k') = map fst (k_log k) ->
  k_ep (walk h k' (skeleton l)) = k_ep (walk h k l) /\ map fst (k_log (walk h k' (skeleton l))) = map fst (k_log (walk h k l)).
Proof.
  induction l as [|i l IH]; intros k k' A B C; [auto|]. cbn [skeleton flat_map]. fold (skeleton l). rewrite walk_app. unfold walk at 2 4. cbn [fold_left].
  change (fold_left (walk1 h) l) with (fun k => walk h k l). cbn beta. apply IH.
  - destruct i as [n e| | | | | | | | | | | | | | |]; cbn; try exact A; try (now rewrite A).
    rewrite B. destruct (_ && _ && _); [exact A|]. destruct e; exact A.
  - destruct i as [n e| | | | | | | | | | | | | | |]; cbn; try exact B; try reflexivity.
    rewrite B. destruct (_ && _ && _); [reflexivity|]. destruct e; first [exact B|reflexivity].
  - destruct i as [n e| | | | | | | | | | | | | | |]; cbn; try exact C.
    rewrite B. destruct (_ && _ && _); [cbn; rewrite !map_app, C; cbn; now rewrite A|]. destruct e; exact C.
Qed.
End Early.
Lemma prefix_split {A} (p a b : list A) : prefix p (a ++ b) -> prefix p a \/ exists q, p = a ++ q /\ prefix q b.
Proof.
  revert p. induction a as [|x a IH]; intros p [r H]; [right; exists p; split; [reflexivity|now exists r]|].
  destruct p as [|y p]; [left; apply prefix_nil|]. injection H as -> H. destruct (IH p) as [[r' ->]|[q [-> Hq]]]; [now exists r|left; now exists r'|right; now exists q].
Qed.
Section Prefix.
Context {I P : Type}.
Variable h : nat.
Variable c : cfg.
Variables c1 c2 : list nat.
Hypothesis Hc : c_cbs c = c1 ++ h :: c2.
Hypothesis H1 : ~ In h c1.
Hypothesis H2 : ~ In h c2.
Lemma epoch_begins x : count is_begin (@doc_epoch I P c x) = 1%nat.
Proof.
  destruct (walk_epoch h c c1 c2 Hc H1 H2 x k0) as [t Ht]. pose proof (walk_ep h (doc_epoch c x) k0) as E. rewrite Ht in E. cbn [k_ep k0] in E. lia.
Qed.
Lemma prefix_begins (xs : list (epoch I P)) t : count is_begin t = 0%nat -> forall k p, prefix p (flat_map (doc_epoch c) xs ++ t) -> (k_ep k <= length (k_log k))%nat ->
  (k_ep (walk h k p) <= S (length (k_log (walk h k p))))%nat.
Proof.
  intros Ht. assert (G : forall k p n, (count is_begin p <= n)%nat -> (n <= 1)%nat -> (k_ep k <= length (k_log k))%nat -> (k_ep (walk h k p) <= S (length (k_log (@walk I P h k p))))%nat).
  { intros k p n A B C. rewrite walk_ep. destruct (walk_log h p k) as [m ->]. rewrite app_length. lia. }
  induction xs as [|x xs IH]; intros k p Hp K.
  - cbn in Hp. apply (prefix_count is_begin) in Hp. apply (G k p 0%nat); lia.
  - cbn [flat_map] in Hp. rewrite <- app_assoc in Hp. apply prefix_split in Hp as [Hp|[q [-> Hq]]].
    + apply (prefix_count is_begin) in Hp. rewrite epoch_begins in Hp. apply (G k p 1%nat); lia.
    + rewrite walk_app. apply IH; [exact Hq|]. destruct (walk_epoch h c c1 c2 Hc H1 H2 x k) as [t' ->]. cbn. rewrite app_length. cbn. lia.
Qed.
Lemma prefix_fit (xs : list (epoch I P)) p : prefix p (doc_fit c xs) ->
  exists m, map fst (k_log (walk h k0 p)) = seq 1 m /\ (m <= length xs)%nat /\ (k_ep (walk h k0 p) <= S m)%nat /\ (m <= k_ep (walk h k0 p))%nat.
Proof.
  intros Hp. destruct (walk_fit h c c1 c2 Hc H1 H2 xs) as [t Ht]. pose proof Hp as [r Hr].
  assert (A : exists m, map fst (k_log (walk h k0 p)) = seq 1 m /\ (m <= length xs)%nat).
  { destruct (walk_log h r (walk h k0 p)) as [m Hm]. rewrite <- walk_app, <- Hr, Ht in Hm. cbn [k_log] in Hm.
    exists (length (k_log (walk h k0 p))). assert (D : map fst (due 0 0 xs) = seq 1 (length xs)) by (unfold due; rewrite map_map; cbn; apply map_id).
    rewrite Hm in D. rewrite map_app in D.
    assert (L : length (map fst (k_log (walk h k0 p)) ++ map fst m) = length xs) by now rewrite D, seq_length. rewrite app_length, !map_length in L. split; [|lia].
    replace (length xs) with (length (k_log (walk h k0 p)) + length m)%nat in D by lia. rewrite seq_app in D.
    apply (f_equal (firstn (length (k_log (walk h k0 p))))) in D.
    rewrite firstn_app, firstn_all2, map_length, Nat.sub_diag in D by (rewrite map_length; lia). cbn [firstn] in D. rewrite app_nil_r in D. rewrite D.
    rewrite firstn_app, seq_length, Nat.sub_diag, firstn_all2 by now rewrite seq_length. apply app_nil_r. }
  destruct A as [m [A1 A2]]. exists m. split; [exact A1|]. split; [exact A2|].
  assert (L : length (k_log (walk h k0 p)) = m) by (now rewrite <- (map_length fst), A1, seq_length).
  split.
  - rewrite <- L. unfold doc_fit in Hp. set (pre := @on I P c SetWrapper ++ on c TrainBegin) in *. rewrite app_assoc in Hp. fold pre in Hp.
    assert (Hpre : forallb dull pre = true) by (unfold pre; now rewrite forallb_app, !dull_on).
    assert (Z : forall e, count is_begin (@on I P c e) = 0%nat) by (intros e; apply count_on; now intros ? ?).
    apply prefix_split in Hp as [Hp|[q [-> Hq]]].
    + apply (prefix_count is_begin) in Hp. unfold pre in Hp. rewrite count_app, !Z in Hp. rewrite walk_ep. cbn. lia.
    + rewrite walk_app, (walk_dull h pre Hpre). apply (prefix_begins xs _ (Z TrainEnd)); [exact Hq|cbn; lia].
  - (* the numbers written are numbers of epochs *)
    assert (B : forall l k, Forall (fun n => (n <= k_ep k)%nat) (map fst (k_log k)) -> Forall (fun n => (n <= k_ep (@walk I P h k l))%nat) (map fst (k_log (walk h k l)))).
    { clear. intros l. induction l as [|i l IH]; intros k F; [exact F|]. unfold walk. cbn [fold_left]. apply IH.
      destruct i as [n e| | | | | | | | | | | | | | |]; cbn; try exact F.
      - destruct (_ && _ && _); [|destruct e; exact F]. cbn. rewrite map_app. apply Forall_app. split; [exact F|]. cbn. constructor; [lia|constructor].
      - eapply Forall_impl; [|exact F]. cbn. lia. }
    specialize (B p k0 (Forall_nil _)). rewrite A1 in B. destruct m as [|m]; [lia|]. rewrite Forall_forall in B. apply B. apply in_seq. lia.
Qed.
End Prefix.

(* ---- files by number ---- *)
Lemma find_app' {A} (f : A -> bool) l m : find f (l ++ m) = match find f l with Some x => Some x | None => find f m end.
Proof. induction l as [|a l IH]; [reflexivity|]. cbn. destruct (f a); [reflexivity|exact IH]. Qed.
Lemma find_none_num {D} (l : list (nat * D)) i : ~ In i (map fst l) -> find (fun x => Nat.eqb (fst x) i) (rev l) = None.
Proof.
  intros H. destruct (find _ _) as [x|] eqn:Ef; [|reflexivity]. apply find_some in Ef as [A B]. apply in_rev in A. apply Nat.eqb_eq in B. exfalso. apply H.
  rewrite <- B. now apply in_map.
Qed.
Lemma disk_old {D} (fs new : list (nat * D)) i : ~ In i (map fst new) -> on_disk i (fs ++ new) = on_disk i fs.
Proof. intros H. unfold on_disk. now rewrite rev_app_distr, find_app', find_none_num. Qed.
Lemma disk_new {D} (fs new : list (nat * D)) i d : NoDup (map fst new) -> In (i, d) new -> on_disk i (fs ++ new) = Some d.
Proof.
  intros N H. unfold on_disk. rewrite rev_app_distr, find_app'. apply in_split in H as [l [m ->]]. rewrite map_app in N. cbn in N. apply NoDup_remove_2 in N.
  rewrite rev_app_distr. cbn [rev]. rewrite <- app_assoc, find_app', find_none_num by (intros Hi; apply N; apply in_or_app; now right).
  cbn. now rewrite Nat.eqb_refl.
Qed.
Lemma filter_other h c1 c2 : ~ In h c1 -> ~ In h c2 -> filter (fun k => negb (Nat.eqb k h)) (c1 ++ h :: c2) = c1 ++ c2.
Proof.
  intros A B. assert (F : forall l, ~ In h l -> filter (fun k => negb (Nat.eqb k h)) l = l).
  { induction l as [|x l IH]; intros H; [reflexivity|]. cbn. destruct (Nat.eqb_spec x h) as [->|N]; [exfalso; apply H; now left|]. cbn. f_equal. apply IH. intros Hx. apply H. now right. }
  rewrite filter_app. cbn. rewrite Nat.eqb_refl. cbn. now rewrite !F.
Qed.
Lemma calm_saver {W I P D} (snap : W -> D) can (E : env W I P) h cbs :
  calm E (filter (fun k => negb (Nat.eqb k h)) cbs) -> calm (with_saver snap can E h) cbs.
Proof.
  intros HC k e f [w fs] r f' [w' fs'] Hk H. cbn in H. destruct (Nat.eqb_spec k h) as [->|N].
  - unfold saver_cb in H. assert (f' = f) as ->; [|tauto].
    destruct e; try (injection H as _ <- _ _; reflexivity). destruct (is_train (f_state f)); [|injection H as _ <- _ _; reflexivity].
    destruct (can (f_epoch f) w); injection H as _ <- _ _; reflexivity.
  - destruct (e_cb E k e (f, w)) as [q [g v]] eqn:Ec. injection H as <- <- <- _. exact (HC _ _ _ _ _ _ _ (others_in h cbs k Hk N) Ec).
Qed.
