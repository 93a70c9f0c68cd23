(* The recorders in a fit and in a prediction. *)
From Coq Require Import Lia Lra.
From Verif Require Import Base.RUtil Model.Fit Model.Record Spec.FitSpec Spec.RecordSpec Proofs.FitP Proofs.FitScan Proofs.FitAll.
Open Scope list_scope.

Section F.
Context {W I P D D' : Type}.
Variable look : W -> res D.
Variable view : D -> D'.     (* what the recorder keeps of a batch *)
Variable E : env W I P.
Variable h : nat.
Variables c1 c2 : list nat.
Hypothesis N1 : ~ In h c1.
Hypothesis N2 : ~ In h c2.
Variable seen : W -> list D.
Hypothesis K : keeps E (c1 ++ c2) look seen.
Variable base : list D.
Notation E' := (with_record (fun w => rmap view (look w)) E h).
Notation cbs := (c1 ++ h :: c2).
Notation st' := (st (W * list D') I P).

(* p: scattered, but not yet recorded *)
Definition U (p : list D) (s : st') : Prop :=
  exists l, seen (fst (s_w s)) = base ++ l ++ p /\ snd (s_w s) = map view l /\ count is_scattered (s_tr s) = (length l + length p)%nat.
(* nothing yet, and whatever the record holds from before *)
Definition V (rs : list D') (s : st') : Prop := seen (fst (s_w s)) = base /\ snd (s_w s) = rs /\ count is_scattered (s_tr s) = 0%nat.
Definition QU (s : st') : Prop :=
  exists l p, seen (fst (s_w s)) = base ++ l ++ p /\ snd (s_w s) = map view l /\ (length p <= 1)%nat.
Lemma U_QU p s : (length p <= 1)%nat -> U p s -> QU s.
Proof. intros L (l & A & B & _). exists l, p. auto. Qed.
Lemma cnt_app (l m : list (item I P)) : count is_scattered (l ++ m) = (count is_scattered l + count is_scattered m)%nat.
Proof. unfold count. now rewrite filter_app, app_length. Qed.

(* a step of the world that makes no scatter batch *)
Lemma U_mod p g : pres (U p) (U p) (@modf _ I P g).
Proof. intros s r s' [= <- <-] H. exact H. Qed.
Lemma lift_r_snd {A} (g : W -> res A * W) w (r : res A) (w' : W * list D') : lift_r g w = (r, w') -> exists v, g (fst w) = (r, v) /\ w' = (v, snd w).
Proof. unfold lift_r. destruct (g (fst w)) as [q v]. intros [= <- <-]. eauto. Qed.
Lemma U_world p {A} (g : W -> res A * W) : (forall w r w', g w = (r, w') -> seen w' = seen w) -> pres (U p) (U p) (world (lift_r g) : M _ I P A).
Proof.
  intros Hg. apply pres_any. intros s r s'. unfold world. destruct (lift_r g (s_w s)) as [q w] eqn:Eg. intros [= <- <-] (l & H1 & H2). apply lift_r_snd in Eg as (v & Eg & ->).
  exists l. cbn [s_w s_tr fst snd]. split; [now rewrite (Hg _ _ _ Eg)|exact H2].
Qed.
Lemma U_emit p i : is_scattered i = false -> pres (U p) (U p) (@emit _ I P i).
Proof. intros Hi. apply pres_any. intros s r s' [= <- <-] (l & A & C & B). exists l. split; [exact A|]. split; [exact C|]. cbn [s_tr s_w]. rewrite cnt_app. unfold count at 2. cbn [filter]. rewrite Hi. cbn [length]. rewrite B. lia. Qed.
Lemma U_act p i g g' : op E i = Some g -> is_scattered i = false -> g' = lift_r g -> pres (U p) (U p) (act i g').
Proof. intros Ho Hi ->. apply pres_bind; [now apply U_emit|intros _]. apply U_world. intros w r w' Hw. exact (ks_op _ _ _ _ K i g w r w' Ho Hi Hw). Qed.
(* callbacks other than the recorder *)
Lemma U_other p k e : In k (c1 ++ c2) -> k <> h -> pres (U p) (U p) (seqM (emit (Call k e)) (fun _ => run_cb E' k e)).
Proof.
  intros Hk Hn. apply pres_bind; [now apply U_emit|intros _]. apply pres_any. intros s r s'. unfold run_cb. cbn [with_record e_cb]. apply Nat.eqb_neq in Hn. rewrite Hn.
  destruct s as [f0 [w0 rs] tr]. cbn [s_fp s_w s_tr]. destruct (e_cb E k e (f0, w0)) as [q [g v]] eqn:Ec. intros [= <- <-] (l & A & B). exists l. cbn [s_w s_tr fst snd] in *. split; [|exact B].
  now rewrite (proj1 (ks_cb _ _ _ _ K _ _ _ _ _ _ _ Hk Ec)).
Qed.
(* the recorder, at an event that it ignores *)
Definition ignored (e : event) : bool := match e with TrainBegin | PredBegin | ScatterEnd => false | _ => true end.
Lemma U_self p e : ignored e = true -> pres (U p) (U p) (seqM (emit (Call h e)) (fun _ => run_cb E' h e)).
Proof.
  intros He. apply pres_bind; [now apply U_emit|intros _]. apply pres_any. intros s r s'. unfold run_cb. cbn [with_record e_cb]. rewrite Nat.eqb_refl.
  destruct s as [f0 [w0 rs] tr]. cbn [s_fp s_w s_tr]. destruct e; try discriminate He; intros [= <- <-] H; exact H.
Qed.
Lemma in_cbs k : In k cbs -> k = h \/ (In k (c1 ++ c2) /\ k <> h).
Proof. intros Hk. destruct (Nat.eq_dec k h); [now left|]. right. split; [|assumption]. apply in_app_iff in Hk as [Hk|[Hk|Hk]]; [apply in_app_iff; now left|congruence|apply in_app_iff; now right]. Qed.
Lemma U_call p e : ignored e = true -> pres (U p) (U p) (call E' cbs e).
Proof. intros He. apply pres_each. intros k Hk. destruct (in_cbs k Hk) as [->|[A B]]; [now apply U_self|now apply U_other]. Qed.
Lemma each_app {A} (f : A -> M (W * list D') I P unit) l m s : each f (l ++ m) s = seqM (each f l) (fun _ => each f m) s.
Proof.
  revert s. induction l as [|a l IH]; intros s; cbn [each app]; [reflexivity|]. unfold seqM at 1 2 3. destruct (f a s) as [[[]|e] s1]; [|reflexivity].
  rewrite IH. reflexivity.
Qed.
(* between: everything that does not scatter, pending batches or not *)
Lemma weaken {A} (R R' Q : st' -> Prop) (m : M _ I P A) : (forall s, R' s -> Q s) -> pres R R' m -> (forall s, R' s -> R s) -> pres R Q m.
Proof. intros H1 H2 H3 s r s' Hm HR. specialize (H2 _ _ _ Hm HR). destruct r; auto. Qed.
Lemma U_Q {A} p (m : M _ I P A) : (length p <= 1)%nat -> pres (U p) (U p) m -> pres (U p) QU m.
Proof. intros L H. apply (weaken _ (U p)); auto. intros s. now apply U_QU. Qed.

(* the part of a muon batch that scatters and records *)
Definition pendl (s : st') : Prop := exists d, look (fst (s_w s)) = Ok d /\ U [d] s.
Lemma pend_other k : In k (c1 ++ c2) -> k <> h -> pres pendl QU (seqM (emit (Call k ScatterEnd)) (fun _ => run_cb E' k ScatterEnd)).
Proof.
  intros Hk Hn s r s' H (d & L & HU). pose proof (any_pres _ _ (U_other [d] k ScatterEnd Hk Hn) _ _ _ H HU) as HU'.
  destruct r as [u|e]; [|apply (U_QU [d]); [cbn; lia|exact HU']]. exists d. split; [|exact HU'].
  unfold seqM, emit, run_cb in H. cbn [s_fp s_w s_tr with_record e_cb] in H. apply Nat.eqb_neq in Hn. rewrite Hn in H.
  destruct s as [f0 [w0 rs] tr]. cbn [s_fp s_w s_tr fst] in *. destruct (e_cb E k ScatterEnd (f0, w0)) as [q [g v]] eqn:Ec. injection H as _ <-. cbn [s_w fst].
  rewrite (proj2 (ks_cb _ _ _ _ K _ _ _ _ _ _ _ Hk Ec) eq_refl). exact L.
Qed.
Lemma pend_self s r s' : seqM (emit (Call h ScatterEnd)) (fun _ => run_cb E' h ScatterEnd) s = (r, s') -> pendl s -> U [] s'.
Proof.
  intros H (d & L & l & A & C & B). unfold seqM, emit, run_cb in H. cbn [s_fp s_w s_tr with_record e_cb] in H. rewrite Nat.eqb_refl in H.
  destruct s as [f0 [w0 rs] tr]. cbn [s_fp s_w s_tr fst snd record_cb] in *. rewrite L in H. cbn [rmap] in H. injection H as _ <-. exists (l ++ [d]). cbn [s_w s_tr fst snd]. split; [|split].
  - rewrite app_nil_r. exact A.
  - now rewrite C, map_app.
  - rewrite cnt_app. cbn. rewrite B, app_length. cbn. lia.
Qed.
Lemma U_scatter_end s r s' : call E' cbs ScatterEnd s = (r, s') -> pendl s -> match r with Ok _ => U [] s' | Err _ => QU s' end.
Proof.
  unfold call. rewrite each_app. unfold seqM at 1. destruct (each _ c1 s) as [r1 s1] eqn:E1. intros H HP.
  assert (P1 : match r1 with Ok _ => pendl s1 | Err _ => QU s1 end).
  { refine (pres_each pendl QU _ c1 _ s r1 s1 E1 HP). intros k Hk. apply pend_other; [apply in_app_iff; now left|]. intros ->. now apply N1. }
  destruct r1 as [u|e]; [|injection H as <- <-; exact P1]. cbn [each] in H. unfold seqM at 1 in H.
  destruct (seqM (emit (Call h ScatterEnd)) (fun _ => run_cb E' h ScatterEnd) s1) as [r2 s2] eqn:E2. pose proof (pend_self _ _ _ E2 P1) as P2.
  destruct r2 as [u2|e]; [|injection H as <- <-; apply (U_QU []); [cbn; lia|exact P2]].
  assert (P3 : pres (U []) QU (each (fun k => seqM (emit (Call k ScatterEnd)) (fun _ => run_cb E' k ScatterEnd)) c2)).
  { apply pres_each. intros k Hk. apply U_Q; [cbn; lia|]. apply U_other; [apply in_app_iff; now right|]. intros ->. now apply N2. }
  exact (P3 _ _ _ H P2).
Qed.
Lemma U_mu : pres (U []) QU (mu_batch E' cbs).
Proof.
  assert (L0 : (@length D [] <= 1)%nat) by (cbn; lia). unfold mu_batch.
  apply pres_bind; [apply pres_getf|intros n]. apply pres_bind; [apply U_Q; [exact L0|]; eapply U_act; reflexivity|intros _].
  apply pres_bind; [apply U_Q; [exact L0|]; now apply U_call|intros _]. apply pres_bind; [apply U_Q; [exact L0|]; eapply U_act; reflexivity|intros _].
  intros s r s' H HU. unfold seqM at 1 in H. destruct (act Scattered (e_scatter E') s) as [r1 s1] eqn:E1.
  unfold act, seqM, emit, world in E1. cbn [s_fp s_w s_tr] in E1. destruct (e_scatter E' (s_w s)) as [q w] eqn:Es. injection E1 as <- <-.
  apply lift_r_snd in Es as (v & Es & ->). destruct HU as (l & A & C & B). cbn [fst snd] in *. rewrite app_nil_r in A. destruct q as [[]|e].
  - destruct (ks_scatter _ _ _ _ K _ _ Es) as (d & L & Sd).
    assert (HP : pendl (St (s_fp s) (v, snd (s_w s)) (s_tr s ++ [Scattered]))).
    { exists d. split; [exact L|]. exists l. cbn [s_w s_tr fst snd]. split; [now rewrite Sd, A, app_assoc|]. split; [exact C|]. rewrite cnt_app, B. cbn. lia. }
    unfold seqM at 1 in H. destruct (call E' cbs ScatterEnd _) as [r2 s2] eqn:E2. pose proof (U_scatter_end _ _ _ E2 HP) as P2.
    destruct r2 as [u|e]; [|injection H as <- <-; exact P2].
    refine (pres_bind (U []) QU _ _ _ _ _ _ _ H P2); [apply U_Q; [exact L0|]; eapply U_act; reflexivity|intros _; apply U_Q; [exact L0|]; now apply U_call].
  - injection H as <- <-. exists l, []. cbn [s_w s_tr fst snd]. rewrite app_nil_r, (ks_failed _ _ _ _ K _ _ _ Es). repeat split; auto.
Qed.

Lemma U_raise {A} e : pres (U []) QU (@raise _ I P A e). Proof. intros s r s' [= <- <-]. apply U_QU. cbn. lia. Qed.
Lemma Q_act i g g' : op E i = Some g -> is_scattered i = false -> g' = lift_r g -> pres (U []) QU (act i g').
Proof. intros Ho Hi Hg. apply U_Q; [cbn; lia|]. eapply U_act; eauto. Qed.
Lemma Q_call e : ignored e = true -> pres (U []) QU (call E' cbs e).
Proof. intros He. apply U_Q; [cbn; lia|]. now apply U_call. Qed.
Lemma Q_emit i : is_scattered i = false -> pres (U []) QU (@emit _ I P i). Proof. intros Hi. apply U_Q; [cbn; lia|]. now apply U_emit. Qed.
Lemma Q_modf g : pres (U []) QU (@modf _ I P g). Proof. apply U_Q; [cbn; lia|]. apply U_mod. Qed.
Lemma Q_next d i : pres (U []) QU (world (e_next E' d i)).
Proof. apply U_Q; [cbn; lia|]. apply (@U_world [] I (e_next E d i)). exact (ks_next _ _ _ _ K d i). Qed.
Lemma Q_predict : pres (U []) QU (world (e_predict E')).
Proof. apply U_Q; [cbn; lia|]. apply (@U_world [] (option P) (e_predict E)). exact (ks_predict _ _ _ _ K). Qed.
Lemma Q_loss f p : e_loss E' = Some f -> pres (U []) QU (world (f p)).
Proof.
  cbn [with_record e_loss]. destruct (e_loss E) as [g|] eqn:El; [|discriminate]. intros [= <-]. apply U_Q; [cbn; lia|]. apply (@U_world [] R (g p)).
  intros w r w' Hw. exact (ks_loss _ _ _ _ K g p w r w' El Hw).
Qed.
Ltac go := repeat first [ apply U_mu | (apply Q_call; reflexivity) | apply pres_ret | apply pres_getf | apply U_raise | apply Q_next | apply Q_predict
    | (eapply Q_loss; eassumption) | (eapply Q_act; reflexivity) | (apply Q_emit; reflexivity) | apply Q_modf
    | apply pres_bind; [|intros ?] | apply pres_each; intros ? ?
    | match goal with |- pres _ _ (match ?x with _ => _ end) => destruct x eqn:? end ].
Lemma Q_update : pres (U []) QU (update E' cbs). Proof. unfold update. go. Qed.
Lemma Q_scan d : pres (U []) QU (scan_volumes E' cbs d).
Proof.
  unfold scan_volumes. generalize 0%nat. generalize (e_len E' d). intros n. induction n as [|n IH]; intros i; cbn [scan_from]; [apply pres_ret|].
  unfold batch_begin, batch_end, scan_volume, add_loss, is_multiple, quotient, need. repeat first [ apply IH | apply Q_update | progress go ].
Qed.
Lemma Q_epochs validate n : pres (U []) QU (fit_epochs E' cbs validate n).
Proof.
  induction n as [|n IH]; cbn [fit_epochs]; [apply pres_ret|]. unfold fit_epoch, run_epoch. repeat first [ apply IH | apply Q_scan | progress go ].
Qed.

(* before the record is emptied *)
Lemma V_other rs k e : In k (c1 ++ c2) -> k <> h -> pres (V rs) (V rs) (seqM (emit (Call k e)) (fun _ => run_cb E' k e)).
Proof.
  intros Hk Hn. apply pres_any. intros s r s'. unfold seqM, emit, run_cb. cbn [with_record e_cb s_fp s_w s_tr]. apply Nat.eqb_neq in Hn. rewrite Hn.
  destruct s as [f0 [w0 rs0] tr]. cbn [s_fp s_w s_tr]. destruct (e_cb E k e (f0, w0)) as [q [g v]] eqn:Ec. intros [= <- <-] (A & B & C). cbn [s_w s_tr fst snd] in *.
  unfold V. cbn [s_w s_tr fst snd]. split; [now rewrite (proj1 (ks_cb _ _ _ _ K _ _ _ _ _ _ _ Hk Ec))|]. split; [exact B|]. cbn [s_tr]. rewrite cnt_app, C. reflexivity.
Qed.
Lemma V_self rs e : ignored e = true -> pres (V rs) (V rs) (seqM (emit (Call h e)) (fun _ => run_cb E' h e)).
Proof.
  intros He. apply pres_any. intros s r s'. unfold seqM, emit, run_cb. cbn [with_record e_cb s_fp s_w s_tr]. rewrite Nat.eqb_refl.
  destruct s as [f0 [w0 rs0] tr]. cbn [s_fp s_w s_tr]. destruct e; try discriminate He; intros [= <- <-] (A & B & C); (split; [exact A|split; [exact B|cbn [s_tr] in *; rewrite cnt_app, C; reflexivity]]).
Qed.
Lemma V_call rs e : ignored e = true -> pres (V rs) (V rs) (call E' cbs e).
Proof. intros He. apply pres_each. intros k Hk. destruct (in_cbs k Hk) as [->|[A B]]; [now apply V_self|now apply V_other]. Qed.
(* the record is emptied *)
Lemma V_begin rs e s r s' : e = TrainBegin \/ e = PredBegin -> call E' cbs e s = (r, s') -> V rs s -> match r with Ok _ => U [] s' | Err _ => V rs s' \/ QU s' end.
Proof.
  intros He. unfold call. rewrite each_app. unfold seqM at 1. destruct (each _ c1 s) as [r1 s1] eqn:E1. intros H HV.
  assert (P1 : match r1 with Ok _ => V rs s1 | Err _ => V rs s1 end).
  { refine (pres_each (V rs) (V rs) _ c1 _ s r1 s1 E1 HV). intros k Hk. apply V_other; [apply in_app_iff; now left|]. intros ->. now apply N1. }
  destruct r1 as [u|x]; [|injection H as <- <-; left; exact P1]. cbn [each] in H. unfold seqM at 1 in H.
  destruct (seqM (emit (Call h e)) (fun _ => run_cb E' h e) s1) as [r2 s2] eqn:E2.
  assert (P2 : r2 = Ok tt /\ U [] s2).
  { unfold seqM, emit, run_cb in E2. cbn [with_record e_cb s_fp s_w s_tr] in E2. rewrite Nat.eqb_refl in E2. destruct s1 as [f0 [w0 rs0] tr]. cbn [s_fp s_w s_tr] in E2.
    destruct P1 as (A & B & C). cbn [s_w s_tr fst snd] in *. destruct He as [-> | ->]; injection E2 as <- <-; (split; [reflexivity|]; exists []; cbn [s_w s_tr fst snd]; split; [now rewrite app_nil_r|]; split; [reflexivity|now rewrite cnt_app, C]). }
  destruct P2 as [-> P2].
  assert (P3 : pres (U []) QU (each (fun k => seqM (emit (Call k e)) (fun _ => run_cb E' k e)) c2)).
  { apply pres_each. intros k Hk. apply U_Q; [cbn; lia|]. apply U_other; [apply in_app_iff; now right|]. intros ->. now apply N2. }
  specialize (P3 _ _ _ H P2). destruct r; auto.
Qed.
Lemma body_record validate rs s r s' : fit_body E' cbs validate s = (r, s') -> V rs s -> match r with Ok _ => U [] s' | Err _ => V rs s' \/ QU s' end.
Proof.
  unfold fit_body. unfold seqM at 1. destruct (call E' cbs SetWrapper s) as [r1 s1] eqn:E1. intros H HV.
  pose proof (V_call rs SetWrapper eq_refl _ _ _ E1 HV) as P1. destruct r1 as [u|e]; [|injection H as <- <-; left; exact P1].
  unfold seqM at 1 in H. destruct (call E' cbs TrainBegin s1) as [r2 s2] eqn:E2. pose proof (V_begin rs TrainBegin _ _ _ (or_introl eq_refl) E2 P1) as P2.
  destruct r2 as [u2|e]; [|injection H as <- <-; exact P2].
  match type of H with ?m s2 = _ => assert (P3 : pres (U []) QU m) end.
  { unfold need. repeat first [ apply Q_epochs | progress go ]. }
  specialize (P3 _ _ _ H P2). destruct r; auto.
Qed.
Lemma predict_record rs s r s' : predict_body E' cbs s = (r, s') -> V rs s -> match r with Ok _ => U [] s' | Err _ => V rs s' \/ QU s' end.
Proof.
  unfold predict_body. unfold seqM at 1. destruct (call E' cbs SetWrapper s) as [r1 s1] eqn:E1. intros H HV.
  pose proof (V_call rs SetWrapper eq_refl _ _ _ E1 HV) as P1. destruct r1 as [u|e]; [|injection H as <- <-; left; exact P1].
  unfold seqM at 1 in H. destruct (act SetEval (e_eval E') s1) as [r0 s0] eqn:E0.
  assert (P0 : V rs s0).
  { unfold act, seqM, emit, world in E0. cbn [s_fp s_w s_tr] in E0. destruct (e_eval E' (s_w s1)) as [q w] eqn:Ee. injection E0 as <- <-. apply lift_r_snd in Ee as (v & Ee & ->).
    destruct P1 as (A & B & C). split; [|split]; cbn [s_w s_tr fst snd]; [now rewrite (ks_op _ _ _ _ K SetEval _ _ _ _ eq_refl eq_refl Ee)|exact B|now rewrite cnt_app, C]. }
  destruct r0 as [u0|e]; [|injection H as <- <-; left; exact P0].
  unfold seqM at 1 in H. destruct (call E' cbs PredBegin s0) as [r2 s2] eqn:E2. pose proof (V_begin rs PredBegin _ _ _ (or_intror eq_refl) E2 P0) as P2.
  destruct r2 as [u2|e]; [|injection H as <- <-; exact P2].
  match type of H with ?m s2 = _ => assert (P3 : pres (U []) QU m) end.
  { repeat first [ apply Q_scan | progress go ]. }
  specialize (P3 _ _ _ H P2). destruct r; auto.
Qed.
End F.
