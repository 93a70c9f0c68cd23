(* A fit can be followed through its trace. *)
From Coq Require Import Lia.
From Verif Require Import Base.RUtil Model.Fit Model.CbView Spec.FitSpec Spec.ReplaySpec Proofs.FitP Proofs.FitScan Proofs.FitAll.
Open Scope list_scope.

Section R.
Context {W I P S : Type}.
Variable E : env W I P.
Variable c : cfg.
Notation cbs := (c_cbs c).
Variable obs : W -> S.
Variable m : nat -> reaction S.
Hypothesis HT : tame E cbs.
Hypothesis Hb : (0 < c_bs c)%nat.
Hypothesis HF : follows E cbs obs m.
Variable v0 : view S.

Definition seen (s : st W I P) : view S := view_of obs (s_fp s) (s_w s).
Definition tracks (s : st W I P) : Prop := seen s = replay m v0 (s_tr s) /\ quiet m v0 (s_tr s).
Lemma quiet_app (l r : list (item I P)) : forall v, quiet m v (l ++ r) <-> quiet m v l /\ quiet m (replay m v l) r.
Proof. induction l as [|i l IH]; intros v; cbn; [tauto|]. rewrite IH. cbn. tauto. Qed.
Lemma quiet_snoc (l : list (item I P)) i v : quiet m v l -> quiet1 m (replay m v l) i -> quiet m v (l ++ [i]).
Proof. intros A B. apply quiet_app. cbn. auto. Qed.
Definition any (s : st W I P) : Prop := True.
Lemma replay_app (l r : list (item I P)) v : replay m v (l ++ r) = replay m (replay m v l) r.
Proof. apply fold_left_app. Qed.
Lemma tr_emit i : (forall v, replay1 m v i = v /\ quiet1 m v i) -> pres tracks any (@emit W I P i).
Proof.
  intros H s r s' [= <- <-] [R R']. unfold tracks, seen in *. cbn [s_fp s_w s_tr]. split; [|apply quiet_snoc; [exact R'|apply H]].
  rewrite replay_app. cbn [replay fold_left]. unfold replay in R. cbn. now rewrite (proj1 (H _)).
Qed.
Lemma tr_world {A} (g : W -> res A * W) : (forall w a w', g w = (Ok a, w') -> obs w' = obs w) -> pres tracks any (@world W I P A g).
Proof.
  intros H s r s'. unfold world. destruct (g (s_w s)) as [q w] eqn:Eg. intros [= <- <-] [R R']. destruct q as [a|e]; [|exact Logic.I].
  unfold tracks, seen, view_of in *. cbn [s_fp s_w s_tr]. split; [|exact R']. now rewrite (H _ _ _ Eg).
Qed.
Lemma tr_act i g : op E i = Some g -> (forall v, replay1 m v i = v /\ quiet1 m v i) -> pres tracks any (@act W I P i g).
Proof.
  intros Ho Hi. apply pres_bind; [now apply tr_emit|intros _]. apply tr_world. intros w [] w' Hw. destruct HF as (_ & H & _). exact (H i g Ho w w' Hw).
Qed.
Lemma tr_modf g : (forall f w, view_of obs (g f) w = view_of obs f w) -> pres tracks any (@modf W I P g).
Proof. intros H s r s' [= <- <-] [R R']. unfold tracks, seen in *. cbn [s_fp s_w s_tr]. split; [|exact R']. now rewrite H. Qed.
Lemma tr_cb k e : In k cbs -> pres tracks any (seqM (emit (Call k e)) (fun _ => run_cb E k e)).
Proof.
  intros Hk s r s'. unfold seqM, emit, run_cb. cbn [s_fp s_w s_tr]. destruct (e_cb E k e (s_fp s, s_w s)) as [q [f w]] eqn:Ec. intros [= <- <-] [R R'].
  destruct q as [[]|x]; [|exact Logic.I]. unfold tracks, seen in *. cbn [s_fp s_w s_tr].
  split; [|apply quiet_snoc; [exact R'|]; cbn [quiet1]; rewrite <- R; destruct HF as (H & _); rewrite (H _ _ _ _ _ _ Hk Ec); eauto]. rewrite replay_app, <- R. cbn [replay fold_left replay1].
  destruct HF as (H & _). rewrite (H _ _ _ _ _ _ Hk Ec).
  destruct (HT _ _ _ _ _ _ Hk Ec) as (T1 & T2 & _ & _ & _ & T3 & _ & _ & T4 & _). unfold view_of. cbn. now rewrite T1, T2, T3, T4.
Qed.
Lemma tr_call e : pres tracks any (call E cbs e).
Proof. apply gen_call. intros k e' Hk. now apply tr_cb. Qed.
Lemma tr_update : pres tracks any (update E cbs).
Proof.
  unfold update. repeat first [ apply tr_call | apply pres_getf | apply pres_ret | (apply tr_act; [reflexivity|now intros v; split])
    | apply pres_bind; [|intros ?] | match goal with |- pres _ _ (match ?x with _ => _ end) => destruct x end ].
Qed.
Lemma tr_scan d : pres tracks any (scan_volumes E cbs d).
Proof.
  destruct HF as (_ & _ & Fn & Fp & Fl & _).
  (* the two items that move the view are not emitted in a scan; the general lemma asks for all items, so they are excluded by their effect *)
  unfold scan_volumes. generalize 0%nat. generalize (e_len E d). intros n. induction n as [|n IH]; intros i; cbn [scan_from]; [apply pres_ret|].
  assert (Hact : forall i g, op E i = Some g -> i <> SetTrain -> i <> SetEval -> pres tracks any (act i g)).
  { intros j g Ho N1 N2. apply tr_act; [exact Ho|]. intros v. destruct j; try (split; [reflexivity|exact Logic.I]); try discriminate Ho; congruence. }
  assert (Hany : forall A e, pres tracks any (@raise W I P A e)) by (intros A e s r s' [= <- <-] _; exact Logic.I).
  unfold batch_begin, batch_end, scan_volume, mu_batch, add_loss, is_multiple, quotient, need.
  repeat first [ apply IH | apply tr_update | apply tr_call | apply pres_ret | apply pres_getf | apply Hany
    | (apply Hact; [reflexivity|discriminate|discriminate]) | (apply tr_emit; now intros v; split) | (apply tr_world; now eauto)
    | (apply tr_modf; now intros f w)
    | apply pres_bind; [|intros ?] | apply pres_each; intros ? ?
    | match goal with |- pres _ _ (match ?x with _ => _ end) => destruct x eqn:? end ].
Qed.
Lemma run_tracks d s s' : tracks s -> run_epoch E cbs d s = (Ok tt, s') -> tracks s'.
Proof.
  intros R H. unfold run_epoch in H. refine (pres_bind tracks any _ _ (tr_call _) _ _ _ _ H R). intros _. apply pres_bind; [apply tr_scan|intros _; apply tr_call].
Qed.
Lemma start_tracks s w : tracks s -> e_train E (s_w s) = (Ok tt, w) ->
  tracks (St (set_state (Some Train) (set_epoch (Datatypes.S (f_epoch (s_fp s))) (s_fp s))) w (s_tr s ++ [SetTrain])).
Proof.
  intros [R R'] Hw. unfold tracks, seen in *. cbn [s_fp s_w s_tr]. split; [|now apply quiet_snoc]. rewrite replay_app, <- R. cbn. destruct HF as (_ & H & _). unfold view_of. cbn.
  now rewrite (H SetTrain _ eq_refl _ _ Hw).
Qed.
Lemma begun_tracks s s2 : tracks s -> begun E c s s2 -> tracks s2 /\ s_tr s2 = s_tr s ++ [SetTrain] ++ on c EpochBegin.
Proof.
  intros R (w & Hc & Hw). split.
  - exact (tr_call EpochBegin _ _ _ Hc (start_tracks s w R Hw)).
  - destruct (call_spec E c HT _ _ _ _ Hc) as [l [Hl (_ & _ & _ & ->)]]. cbn [s_tr] in Hl. now rewrite Hl, <- app_assoc.
Qed.
Lemma epoch_tracks validate : epoch_inv E c validate tracks (fun l => vw_skip (replay m v0 (l ++ [SetTrain] ++ on c EpochBegin))).
Proof.
  intros s s' R H. split.
  - unfold fit_epoch in H. unfold seqM at 1 in H. unfold modf at 1 in H. unfold seqM at 1 in H.
    destruct (act SetTrain (e_train E) _) as [r1 s1] eqn:E1. unfold act, seqM, emit, world in E1. cbn [s_w s_fp s_tr] in E1.
    destruct (e_train E (s_w s)) as [q w] eqn:Et. injection E1 as <- <-. destruct q as [[]|e]; [|discriminate].
    unfold seqM at 1 in H. unfold modf at 1 in H. cbn [s_w s_fp s_tr] in H. unfold seqM at 1 in H.
    destruct (run_epoch E cbs TrnData _) as [r2 s2] eqn:E2. destruct r2 as [[]|e]; [|discriminate].
    apply run_tracks in E2; [|exact (start_tracks s w R Et)].
    destruct validate; [|injection H as <-; exact E2].
    unfold seqM at 1 in H. destruct (act SetEval (e_eval E) s2) as [r3 s3] eqn:E3. unfold act, seqM, emit, world in E3. cbn [s_w s_fp s_tr] in E3.
    destruct (e_eval E (s_w s2)) as [q w2] eqn:Ee. injection E3 as <- <-. destruct q as [[]|e]; [|discriminate].
    unfold seqM at 1 in H. unfold modf at 1 in H. cbn [s_w s_fp s_tr] in H.
    apply run_tracks in H; [exact H|]. destruct E2 as [E2 E2']. unfold tracks, seen in *. cbn [s_fp s_w s_tr]. split; [|now apply quiet_snoc]. rewrite replay_app, <- E2. cbn. destruct HF as (_ & H' & _). unfold view_of. cbn.
    now rewrite (H' SetEval _ eq_refl _ _ Ee).
  - intros s2 HB. destruct (begun_tracks s s2 R HB) as [[R2 _] T2]. rewrite <- T2, <- R2. reflexivity.
Qed.
End R.

(* a fit that ends normally: the documented trace, what is seen at its end, and where updates were skipped *)
Lemma fit_replay {W I P S} (E : env W I P) (obs : W -> S) m n bs n_mu mu_bs validate cbs a cbs' a' tr :
  tame E cbs -> (0 < bs)%nat -> follows E cbs obs m ->
  fit E n bs n_mu mu_bs validate cbs a = (Ok cbs', a', tr) ->
  let c := Cfg cbs bs n_mu mu_bs in let v0 := fresh n bs (obs (w_w a)) in
  exists xs, tr = doc_fit c xs /\ (length xs <= n)%nat /\ ((0 < n)%nat -> (0 < length xs)%nat) /\
    Forall (epoch_shape c validate (e_len E TrnData) (e_len E ValData)) xs /\
    Forall (fun x => Forall (loss_iff (has_loss E)) (epoch_vols x)) xs /\
    obs (w_w a') = vw_st (replay m v0 tr) /\ quiet m v0 tr /\
    (forall i x, nth_error xs i = Some x -> ep_skip x = vw_skip (replay m v0 (upto c xs i))).
Proof.
  intros HT Hb HF H c v0. unfold fit in H. destruct (e_mkdir E (w_w a)) as [[[]|e] w] eqn:Em; [|discriminate].
  destruct (fit_body E cbs validate _) as [r s] eqn:EB. destruct r as [[]|e]; [|discriminate]. injection H as <- <- <-.
  destruct ((fun h1 h2 h3 => fit_body_spec E c HT Hb validate n _ _ _ h1 h2 h3 EB) (conj (conj eq_refl eq_refl) eq_refl) eq_refl eq_refl) as [_ H2].
  destruct (H2 eq_refl) as (xs & L1 & L2 & _ & _ & J & F1 & F2 & Ht & _). exists xs.
  assert (Hm : obs w = obs (w_w a)) by (destruct HF as (_ & _ & _ & _ & _ & H'); exact (H' _ _ Em)).
  destruct (J (tracks obs m v0) _ (epoch_tracks E c obs m HT HF v0 validate)) as [J1 J2].
  { intros e s1 u s2 Hc R. exact (tr_call E c obs m HT HF v0 e _ _ _ Hc R). }
  { unfold tracks, seen, view_of, v0, fresh. cbn. split; [now rewrite Hm|exact Logic.I]. }
  do 5 (split; [assumption|]). split.
  - cbn [w_w]. destruct J1 as [J1 _]. rewrite <- J1. reflexivity.
  - split; [apply J1|]. intros i x Hx. rewrite (J2 i x Hx). unfold upto. now rewrite <- !app_assoc.
Qed.
