(* HeatMapGif in a fit. *)
From Coq Require Import Lia.
From Verif Require Import Base.RUtil Model.Fit Model.Observer Model.HeatGif Spec.FitSpec Spec.SaverSpec Proofs.FitP Proofs.FitScan Proofs.FitAll Proofs.FitCount Proofs.ObserverP Properties.FitProps.
Open Scope list_scope.

Lemma F2_len {A B} (R : A -> B -> Prop) l m : Forall2 R l m -> length m = length l.
Proof. induction 1; cbn; congruence. Qed.
Lemma F2_impl {A B} (R S : A -> B -> Prop) l m : (forall a b, R a b -> S a b) -> Forall2 R l m -> Forall2 S l m.
Proof. intros H. induction 1; constructor; auto. Qed.
Lemma F2_in {A B} (R : A -> B -> Prop) l m a : Forall2 R l m -> In a l -> exists b, In b m /\ R a b.
Proof. induction 1 as [|x y l m H F IH]; [intros []|]. intros [->|Hi]; [exists y; split; [now left|exact H]|]. destruct (IH Hi) as (b & B1 & B2). exists b. split; [now right|exact B2]. Qed.
Lemma F2_nth {A B} (R : A -> B -> Prop) l m i b : Forall2 R l m -> nth_error m i = Some b -> exists a, nth_error l i = Some a /\ R a b.
Proof. intros F. revert i. induction F as [|a c l m H F IH]; intros [|i] Hi; cbn in *; try discriminate; [injection Hi as <-; eauto|eauto]. Qed.

(* ---- the end of a fit with an observer ---- *)
Section End.
Context {W I P X : Type}.
Variable cb : event -> fp P -> W -> X -> res unit * X.
Variable want : event -> bool.
Hypothesis Hcb : forall e f w x, want e = false -> cb e f w x = (Ok tt, x).
Hypothesis Hw : forall e, want e = true -> sets_skip e = true.
Variable E : env W I P.
Variable h : nat.
Variables c1 c2 : list nat.
Hypothesis HT : tame E (c1 ++ c2).
Hypothesis N1 : ~ In h c1.
Hypothesis N2 : ~ In h c2.
(* as agrees, with the list of the other callbacks *)
Definition saw (ver : W -> nat) (v0 : nat) (z : event * fp P * W) (n : seen) : Prop :=
  let '(e, f, w) := z in
  e = n_ev n /\ is_train (f_state f) = n_train n /\ f_epoch f = n_ep n /\ (counts_steps E (c1 ++ c2) ver -> ver w = (v0 + n_steps n)%nat).
Lemma saw_agrees ver v0 l m : Forall2 (agrees E h (c1 ++ h :: c2) ver v0) l m -> Forall2 (saw ver v0) l m.
Proof. intros H. induction H as [|[[e f] w] n l m A F IH]; constructor; auto. unfold agrees in A. rewrite filter_other in A by assumption. exact A. Qed.
Lemma obs_fit n bs n_mu mu_bs validate o w x cbs' a' tr : (0 < bs)%nat ->
  fit (with_obs cb E h) n bs n_mu mu_bs validate (c1 ++ h :: c2) (Wrapper o (w, x)) = (Ok cbs', a', tr) ->
  exists xs t, tr = doc_fit (Cfg (c1 ++ h :: c2) bs n_mu mu_bs) xs /\ (length xs <= n)%nat /\ (calm E (c1 ++ c2) -> length xs = n) /\
    forall ver, exists l, Forall2 (saw ver (ver w)) l (once want SetWrapper o0 ++ once want TrainBegin o0 ++ epochs_seen want 0 0 xs
                             ++ once want TrainEnd (Wt t (length xs) (list_sum (map steps_in xs)) [])) /\
    replay cb l x = (Ok tt, snd (w_w a')).
Proof.
  intros Hb H. pose proof (filter_other h c1 c2 N1 N2) as HF. pose proof HT as HT'. rewrite <- HF in HT'.
  destruct (C41_order _ _ _ _ _ _ _ _ _ _ _ _ _ _ (tame_obs cb E h _ HT' (fun _ => 0%nat)) Hb H) as (xs & Ht & L1 & L2 & L3 & _).
  destruct (watch_fit h want Hw (Cfg (c1 ++ h :: c2) bs n_mu mu_bs) c1 c2 eq_refl N1 N2 xs) as [t Hx]. rewrite <- Ht in Hx. exists xs.
  unfold fit in H. destruct (e_mkdir _ _) as [[[]|e] w1] eqn:Em; [|discriminate].
  destruct (fit_body _ _ _ _) as [r s] eqn:EB. destruct r as [[]|e]; [|discriminate]. injection H as <- <- <-.
  cbn [w_w] in Em. change (lift_o (e_mkdir E) (w, x) = (Ok tt, w1)) in Em. apply lift_snd in Em as (v & Em & ->). cbn [fst snd] in *.
  exists t. cbn [w_w]. split; [exact Ht|]. split; [exact L1|]. split; [intros HC; apply L3, (calm_obs cb E h _ (fun _ => 0%nat)); now rewrite HF|]. intros ver.
  pose proof (T_body cb want Hcb E h (c1 ++ h :: c2) HT' ver (ver w) x validate _ _ _ EB) as HB. cbn beta iota in HB.
  destruct HB as (_ & _ & _ & l & A1 & A2).
  { unfold T. cbn. split; [reflexivity|]. split; [reflexivity|]. split; [|exists []; split; [constructor|reflexivity]].
    intros HC. rewrite HF in HC. destruct HC as (_ & _ & _ & _ & _ & _ & HM). rewrite (HM _ _ Em). lia. }
  rewrite Hx in A1. cbn [o_log] in A1. exists l. split; [now apply saw_agrees|exact A2].
Qed.
(* however the fit ends *)
Lemma obs_any ver n bs n_mu mu_bs validate o w x r a' tr :
  fit (with_obs cb E h) n bs n_mu mu_bs validate (c1 ++ h :: c2) (Wrapper o (w, x)) = (r, a', tr) ->
  exists l q, Forall2 (saw ver (ver w)) l (o_log (watch h want o0 tr)) /\ replay cb l x = (q, snd (w_w a')).
Proof.
  intros H. pose proof (filter_other h c1 c2 N1 N2) as HF. pose proof HT as HT'. rewrite <- HF in HT'.
  unfold fit in H. destruct (e_mkdir _ _) as [q w1] eqn:Em. cbn [w_w] in Em. change (lift_o (e_mkdir E) (w, x) = (q, w1)) in Em. apply lift_snd in Em as (v & Em & ->). cbn [fst snd] in *.
  destruct q as [[]|e]; [|injection H as _ <- <-; exists [], (Ok tt); split; [constructor|reflexivity]].
  destruct (fit_body _ _ _ _) as [q s] eqn:EB. injection H as _ <- <-. cbn [w_w].
  pose proof (T_body cb want Hcb E h (c1 ++ h :: c2) HT' ver (ver w) x validate _ _ _ EB) as HB.
  assert (HQ : Q cb want E h (c1 ++ h :: c2) ver (ver w) x s).
  { destruct q as [[]|e]; [apply T_Q|]; apply HB; unfold T; cbn; (split; [reflexivity|]; split; [reflexivity|]; split; [|exists []; split; [constructor|reflexivity]]);
      intros HC; rewrite HF in HC; destruct HC as (_ & _ & _ & _ & _ & _ & HM); rewrite (HM _ _ Em); lia. }
  destruct HQ as (l & q' & A & B). exists l, q'. split; [now apply saw_agrees|exact B].
Qed.
End End.
(* what was seen was called *)
Lemma seen_called {I P} h want (tr : list (item I P)) : forall k n, In n (o_log (watch h want k tr)) -> In n (o_log k) \/ In (Call h (n_ev n)) tr.
Proof.
  induction tr as [|i tr IH]; intros k n H; [left; exact H|]. unfold watch in H. cbn [fold_left] in H. apply IH in H as [H|H]; [|right; right; exact H].
  destruct i as [m e| | | | | | | | | | | | | | |]; try (left; exact H). cbn [watch1] in H. destruct (Nat.eqb_spec m h) as [->|N]; [|left; exact H].
  destruct (want e); [|left; exact H]. cbn in H. apply in_app_or in H as [H|[<-|[]]]; [left; exact H|right; left; reflexivity].
Qed.

(* ---- the gif ---- *)
Definition gif_wants (e : event) : bool := match e with TrainBegin | EpochBegin | TrainEnd => true | _ => false end.
Section G.
Context {W P D : Type}.
Variable look : W -> first_detector D.
Variable can : nat -> W -> res unit.
Notation cb := (@gif_cb W P D look can).
Lemma gif_idle e f w x : gif_wants e = false -> cb e f w x = (Ok tt, x).
Proof. now destruct e. Qed.
Lemma gif_coarse e : gif_wants e = true -> sets_skip e = true.
Proof. now destruct e. Qed.
Variable pic : W -> D.
Hypothesis Hlook : forall w, look w = HeatMap (pic w).
(* n pictures, the i-th being the i-th of ds *)
Definition holds (t : nat -> option D) (ds : list D) : Prop := forall i d, nth_error ds i = Some d -> t i = Some d.
Lemma plot_ok w (g g' : gif D) ds : g_buffer g = seq 0 (length ds) -> holds (g_temp g) ds -> plot_current look can w g = (Ok tt, g') ->
  g_buffer g' = seq 0 (length (ds ++ [pic w])) /\ holds (g_temp g') (ds ++ [pic w]) /\ g_gif g' = g_gif g /\ (forall k, (length ds < k)%nat -> g_temp g' k = g_temp g k).
Proof.
  intros B Hd. unfold plot_current. rewrite Hlook. destruct (can _ w); [|discriminate]. intros [= <-]. cbn [g_buffer g_temp g_gif]. rewrite B, seq_length.
  split; [rewrite app_length; cbn [length]; now rewrite seq_app|]. split; [|split; [reflexivity|]].
  - intros i d Hi. unfold HeatGif.put. destruct (Nat.eqb_spec i (length ds)) as [->|N].
    + rewrite nth_error_app2, Nat.sub_diag in Hi by lia. cbn in Hi. exact Hi.
    + apply Hd. assert (i < length (ds ++ [pic w]))%nat by (apply nth_error_Some; now rewrite Hi). rewrite app_length in H. cbn in H. rewrite nth_error_app1 in Hi by lia. exact Hi.
  - intros k Hk. unfold HeatGif.put. destruct (Nat.eqb_spec k (length ds)); [lia|reflexivity].
Qed.
(* steps made before each epoch *)
Fixpoint starts {I} (st : nat) (xs : list (epoch I P)) : list nat := match xs with [] => [] | x :: xs => st :: starts (st + steps_in x) xs end.
Lemma starts_nth {I} (xs : list (epoch I P)) : forall st i, (i < length xs)%nat -> nth_error (starts st xs) i = Some (st + list_sum (map steps_in (firstn i xs)))%nat.
Proof.
  induction xs as [|x xs IH]; intros st i Hi; [cbn in Hi; lia|]. destruct i as [|i]; [cbn; f_equal; lia|]. cbn [starts nth_error firstn map]. rewrite IH by (cbn in Hi; lia).
  f_equal. unfold list_sum. cbn. lia.
Qed.
Lemma starts_len {I} (xs : list (epoch I P)) : forall st, length (starts st xs) = length xs.
Proof. induction xs as [|x xs IH]; intros st; [reflexivity|]. cbn. now rewrite IH. Qed.
Variable sees : event * fp P * W -> seen -> Prop.
Hypothesis Hsees : forall e f w n, sees (e, f, w) n -> e = n_ev n /\ is_train (f_state f) = n_train n.
(* one picture for each epoch *)
Lemma replay_epochs {I} (xs : list (epoch I P)) : forall e st l g ds g',
  Forall2 sees l (epochs_seen gif_wants e st xs) -> g_buffer g = seq 0 (length ds) -> holds (g_temp g) ds -> replay cb l g = (Ok tt, g') ->
  exists ws, g_buffer g' = seq 0 (length (ds ++ map pic ws)) /\ holds (g_temp g') (ds ++ map pic ws) /\ g_gif g' = g_gif g /\
    (forall k, (length (ds ++ map pic ws) <= k)%nat -> g_temp g' k = g_temp g k) /\
    Forall2 (fun w n => exists ev f ep, sees (ev, f, w) (Seen EpochBegin true ep n)) ws (starts st xs).
Proof.
  induction xs as [|x xs IH]; intros e st l g ds g' F B Hd H.
  - inversion F; subst. cbn in H. injection H as <-. exists []. cbn [map]. rewrite app_nil_r. repeat split; auto. constructor.
  - cbn [epochs_seen] in F. apply Forall2_app_inv_r in F as (l1 & l2 & F1 & F2 & ->). rewrite replay_app in H.
    assert (V : exists ev f w g1, replay cb l1 g = replay cb [(ev, f, w)] g /\ sees (ev, f, w) (Seen EpochBegin true (S e) st) /\ replay cb [(ev, f, w)] g = (Ok tt, g1)).
    { unfold epoch_seen, once in F1. cbn [gif_wants app o_train o_ep o_steps] in F1. destruct (replay cb l1 g) as [[[]|y] g1] eqn:E1; [|discriminate].
      inversion F1 as [|[[ev f] w] n l1' m S1 F1' ]; subst. exists ev, f, w, g1.
      assert (Hr : forall y, replay cb l1' y = (Ok tt, y)).
      { intros y. destruct (ep_valid x) as [v|]; cbn in F1'; [|inversion F1'; reflexivity]. inversion F1' as [|[[ev' f'] w'] n' l1'' m' S2 F2']; subst. inversion F2'; subst.
        destruct (Hsees _ _ _ _ S2) as [Ev Tr]. cbn [n_ev n_train o_train] in Ev, Tr. subst ev'. cbn [replay gif_cb]. now rewrite Tr. }
      assert (Hr1 : replay cb ((ev, f, w) :: l1') g = replay cb [(ev, f, w)] g).
      { cbn [replay]. destruct (cb ev f w g) as [[u|y] g2]; [|reflexivity]. apply Hr. }
      split; [rewrite <- Hr1; symmetry; exact E1|]. split; [exact S1|]. rewrite <- Hr1. exact E1. }
    destruct V as (ev & f & w & g1 & E1 & S1 & E2). rewrite E1, E2 in H. pose proof S1 as S1'. apply Hsees in S1' as [Sev Tr]. cbn [n_ev n_train] in Sev, Tr. subst ev.
    cbn [replay gif_cb] in E2. rewrite Tr in E2. destruct (plot_current look can w g) as [[[]|y] g2] eqn:Ep; [|discriminate]. injection E2 as ->.
    destruct (plot_ok w g g1 ds B Hd Ep) as (P1 & P2 & P3 & P4).
    destruct (IH _ _ _ _ _ _ F2 P1 P2 H) as (ws & Q1 & Q2 & Q3 & Q4 & Q5). exists (w :: ws). cbn [map]. rewrite <- app_assoc in Q1, Q2, Q4. cbn [app] in Q1, Q2, Q4.
    split; [exact Q1|]. split; [exact Q2|]. split; [congruence|]. split; [|cbn [starts]; constructor; eauto 10].
    intros k Hk. rewrite Q4 by exact Hk. apply P4. rewrite app_length in Hk. cbn in Hk. lia.
Qed.
(* the frames *)
Lemma add_all ds : forall i g fr, holds (fun k => g_temp g (i + k)%nat) ds -> g_gif g = Some fr ->
  add_frames (seq i (length ds)) g = (Ok tt, Gif (g_buffer g) (g_temp g) (Some (fr ++ ds))).
Proof.
  induction ds as [|d ds IH]; intros i g fr Hd Hg; [cbn; rewrite app_nil_r, <- Hg; now destruct g|]. cbn [length seq add_frames].
  pose proof (Hd 0%nat d eq_refl) as H0. cbn beta in H0. rewrite Nat.add_0_r in H0. rewrite H0, Hg. rewrite (IH (S i) _ (fr ++ [d])); [|intros k x Hk|reflexivity].
  - cbn [g_buffer g_temp]. now rewrite <- app_assoc.
  - cbn [g_temp]. specialize (Hd (S k) x Hk). cbn beta in Hd. rewrite <- Hd. f_equal. lia.
Qed.
Lemma cleared (ns : list nat) : forall (t : nat -> option D) k, fold_left (fun t n => HeatGif.put n None t) ns t k = if in_dec Nat.eq_dec k ns then None else t k.
Proof.
  induction ns as [|n ns IH]; intros t k; [reflexivity|]. cbn [fold_left]. rewrite IH. unfold HeatGif.put. destruct (in_dec Nat.eq_dec k ns) as [Hk|Hk], (in_dec Nat.eq_dec k (n :: ns)) as [Hn|Hn]; auto.
  - exfalso. apply Hn. now right.
  - destruct Hn as [->|Hn]; [now rewrite Nat.eqb_refl|contradiction].
  - destruct (Nat.eqb_spec k n) as [->|]; [exfalso; apply Hn; now left|reflexivity].
Qed.
Lemma create_all ds g : g_buffer g = seq 0 (length ds) -> holds (g_temp g) ds ->
  exists t, create_gif g = (Ok tt, Gif (g_buffer g) t (Some ds)) /\ forall k, t k = if (k <? length ds)%nat then None else g_temp g k.
Proof.
  intros B Hd. unfold create_gif. rewrite B. pose proof (add_all ds 0 (Gif (seq 0 (length ds)) (g_temp g) (Some [])) [] Hd eq_refl) as A. rewrite A. cbn [g_buffer g_temp g_gif app].
  eexists. split; [reflexivity|]. intros k. rewrite cleared. destruct (in_dec Nat.eq_dec k (seq 0 (length ds))) as [Hk|Hk]; rewrite in_seq in Hk; destruct (Nat.ltb_spec k (length ds)); auto; lia.
Qed.
End G.

Section Other.
Context {W P D : Type}.
Variable look : W -> first_detector D.
Variable can : nat -> W -> res unit.
Notation cb := (@gif_cb W P D look can).
Lemma plot_keeps w (g g' : gif D) q : plot_current look can w g = (q, g') -> g_gif g' = g_gif g /\ (forall k, g_temp g k <> None -> g_temp g' k <> None).
Proof.
  unfold plot_current. destruct (look w) as [| | |d]; try (intros [= _ <-]; cbn; auto). destruct (can _ w); intros [= _ <-]; cbn [g_gif g_temp]; [|auto].
  split; [reflexivity|]. intros k Hk. unfold HeatGif.put. destruct (_ =? _)%nat; [discriminate|exact Hk].
Qed.
Lemma replay_keeps l : forall (g : gif D) q g', (forall e f v, In (e, f, v) l -> e <> TrainEnd) -> replay cb l g = (q, g') ->
  g_gif g' = g_gif g /\ (forall k, g_temp g k <> None -> g_temp g' k <> None).
Proof.
  induction l as [|[[e f] v] l IH]; intros g q g' Hn H; [injection H as _ <-; auto|]. cbn [replay] in H.
  assert (S : forall q1 g1, cb e f v g = (q1, g1) -> g_gif g1 = g_gif g /\ (forall k, g_temp g k <> None -> g_temp g1 k <> None)).
  { intros q1 g1 E1. destruct e; try (injection E1 as _ <-; cbn; auto); [|exfalso; eapply Hn; [left; reflexivity|reflexivity]].
    cbn [gif_cb] in E1. destruct (is_train _); [exact (plot_keeps _ _ _ _ E1)|]. injection E1 as _ <-; auto. }
  destruct (cb e f v g) as [[u|y] g1]; destruct (S _ _ eq_refl) as [S1 S2]; [|injection H as _ <-; auto].
  apply IH in H as [A B]; [|intros e' f' v' Hi; eapply Hn; right; exact Hi]. split; [congruence|auto].
Qed.
Lemma replay_other (Hl : forall w, look w = OtherDetector) l : forall (g : gif D) q g', replay cb l g = (q, g') -> g_gif g' = g_gif g /\ g_temp g' = g_temp g.
Proof.
  induction l as [|[[e f] v] l IH]; intros g q g' H; [injection H as _ <-; auto|]. cbn [replay] in H.
  assert (S : forall q1 g1, cb e f v g = (q1, g1) -> g_gif g1 = g_gif g /\ g_temp g1 = g_temp g).
  { intros q1 g1. unfold gif_cb, plot_current. rewrite Hl. destruct e; try (intros [= _ <-]; cbn; auto). destruct (is_train _); intros [= _ <-]; auto. }
  destruct (cb e f v g) as [[u|y] g1]; destruct (S _ _ eq_refl) as [S1 S2]; [|injection H as _ <-; auto]. apply IH in H as [A B]. split; congruence.
Qed.
(* no picture number 0, and no name or that one first *)
Definition void (g : gif D) : Prop := (g_buffer g = [] \/ exists b, g_buffer g = 0%nat :: b) /\ g_temp g 0%nat = None.
Lemma void_plot (Hl : forall w, look w = NoDetector \/ look w = NoPanel) w g : void g -> exists b, plot_current look can w g = (Ok tt, Gif (0%nat :: b) (g_temp g) (g_gif g)).
Proof.
  intros [B _]. unfold plot_current. replace (match look w with NoDetector | NoPanel => _ | _ => _ end) with (@Ok unit tt, Gif (g_buffer g ++ [length (g_buffer g)]) (g_temp g) (g_gif g))
    by (destruct (Hl w) as [-> | ->]; reflexivity).
  destruct B as [-> |[b ->]]; cbn; eauto.
Qed.
Lemma void_end (Hl : forall w, look w = NoDetector \/ look w = NoPanel) f w g : void g -> exists g', cb TrainEnd f w g = (Err FileNotFoundError, g').
Proof.
  intros V. destruct (void_plot Hl w g V) as [b E1]. cbn [gif_cb]. rewrite E1. unfold create_gif. cbn [g_buffer g_temp add_frames]. rewrite (proj2 V). eauto.
Qed.
Lemma replay_void (Hl : forall w, look w = NoDetector \/ look w = NoPanel) l : forall g g', void g -> replay cb l g = (Ok tt, g') -> void g'.
Proof.
  induction l as [|[[e f] v] l IH]; intros g g' V H; [injection H as <-; auto|]. cbn [replay] in H.
  destruct (cb e f v g) as [[u|y] g1] eqn:E1; [|discriminate]. apply IH in H; [exact H|]. clear IH H.
  destruct e; try (injection E1 as _ <-; exact V).
  - injection E1 as _ <-. split; [left; reflexivity|exact (proj2 V)].
  - cbn [gif_cb] in E1. destruct (is_train _); [|injection E1 as _ <-; exact V]. destruct (void_plot Hl v g V) as [b E2]. rewrite E2 in E1. injection E1 as _ <-.
    split; [right; now exists b|exact (proj2 V)].
  - destruct (void_end Hl f v g V) as [g2 E2]. rewrite E2 in E1. discriminate.
Qed.
End Other.
