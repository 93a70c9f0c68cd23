(* The scan of the volumes: batches, updates. *)
From Coq Require Import Lia Lra.
From Verif Require Import Base.RUtil Model.Fit Spec.FitSpec Proofs.FitP.
Open Scope list_scope.

Ltac flat := repeat (progress (rewrite <- ?app_assoc; cbn [app])).
Ltac flat_in H := repeat (progress (rewrite <- ?app_assoc in H; cbn [app] in H)).

Section S.
Context {W I P : Type}.
Notation items := (list (item I P)).
Variable Env : env W I P.
Variable c : cfg.
Notation cbs := (c_cbs c).
Notation b := (c_bs c).
Hypothesis HT : tame Env cbs.

Definition loss_of (vs : list (vol I P)) : option R := match losses vs with [] => None | ls => Some (Rsum ls) end.
Lemma losses_snoc (vs : list (vol I P)) v : losses (vs ++ [v]) = losses vs ++ match v_loss v with Some l => [l] | None => [] end.
Proof. unfold losses. rewrite flat_map_app. cbn. now rewrite app_nil_r. Qed.
Lemma loss_of_snoc vs v : loss_of (vs ++ [v]) = opt_add (loss_of vs) (v_loss v).
Proof.
  unfold loss_of. rewrite losses_snoc. destruct (v_loss v) as [l|]; cbn [opt_add]; [|now rewrite app_nil_r].
  destruct (losses vs) as [|x ls].
  - cbn. f_equal. ring.
  - change ((x :: ls) ++ [l]) with (x :: (ls ++ [l])). cbv iota. f_equal. change (x :: (ls ++ [l])) with ((x :: ls) ++ [l]). rewrite Rsum_app. cbn. ring.
Qed.
Lemma mean_loss_of vs : mean_loss c vs = match loss_of vs with Some l => Some (l / INR b)%R | None => None end.
Proof. unfold mean_loss, loss_of. destruct (losses vs); reflexivity. Qed.

(* volumes that only differ in their data have the same skeleton *)
Lemma skel_flat {A} (f : A -> items) (g : list (item unit unit)) (l : list A) :
  (forall a, skeleton (f a) = g) -> skeleton (flat_map f l) = concat (repeat g (length l)).
Proof. intros H. induction l as [|a l IH]; [reflexivity|]. cbn [flat_map length repeat concat]. now rewrite skel_app, H, IH. Qed.

Lemma update_spec s :
  spec (update Env cbs) s (doc_update c true None)
    (fun _ s' t => still Env c (s_fp s) (s_fp s') /\ t = doc_update c (f_skip (s_fp s)) (f_mean (s_fp s))).
Proof.
  unfold update.
  eapply spec_conseq.
  { eapply spec_bind; [apply spec_act|intros [] s1 l1 (H1 & ->)].
    eapply spec_bind; [apply (call_still Env c HT); reflexivity|intros [] s2 l2 (H2 & ->)].
    eapply spec_bind; [apply spec_getf|intros m s0 l0 (-> & -> & ->)].
    replace (f_mean (s_fp s2)) with (f_mean (s_fp s)) by (destruct H2 as [[_ [_ [H2 _]]] _]; congruence).
    eapply spec_bind with (E1 := []) (Q1 := fun _ s' t => s_fp s' = s_fp s2 /\ t = match f_mean (s_fp s) with Some l => [Backward l] | None => [] end).
    { destruct (f_mean (s_fp s)); [|now apply spec_ret]. eapply spec_conseq; [apply spec_act|reflexivity|auto]. }
    intros [] s3 l3 (H3 & ->).
    eapply spec_bind; [apply (call_still Env c HT); reflexivity|intros [] s4 l4 (H4 & ->)].
    eapply spec_bind; [apply spec_getf|intros m s0 l0 (-> & -> & ->)].
    eapply spec_bind; [apply spec_getf|intros sk s0 l0 (-> & -> & ->)].
    assert (H : still Env c (s_fp s) (s_fp s4)) by (rewrite H1 in H2; rewrite H3 in H4; now apply still_trans with (s_fp s2)).
    replace (f_mean (s_fp s4)) with (f_mean (s_fp s)) by (destruct H as [[_ [_ [H _]]] _]; congruence).
    replace (f_skip (s_fp s4)) with (f_skip (s_fp s)) by (destruct H as [_ H]; congruence).
    eapply spec_bind with (E1 := []) (Q1 := fun _ s' t => s_fp s' = s_fp s4 /\ t = if f_skip (s_fp s) then [] else match f_mean (s_fp s) with Some l => [Step] | None => [] end).
    { destruct (f_mean (s_fp s)), (f_skip (s_fp s)); try (now apply spec_ret). eapply spec_conseq; [apply spec_act|reflexivity|auto]. }
    intros [] s5 l5 (H5 & ->).
    eapply spec_bind; [apply (call_still Env c HT); reflexivity|intros [] s6 l6 (H6 & ->)].
    eapply spec_conseq; [apply spec_act|reflexivity|intros [] s7 l7 (H7 & ->)].
    instantiate (1 := fun _ s' t => still Env c (s_fp s) (s_fp s') /\ t = doc_update c (f_skip (s_fp s)) (f_mean (s_fp s))). cbv beta.
    split; [rewrite H7; rewrite H5 in H6; now apply still_trans with (s_fp s4)|reflexivity]. }
  - reflexivity.
  - auto.
Qed.

Definition train_of (f : fp P) : bool := is_train (f_state f).
Definition kept (f f' : fp P) : Prop := fixed f f' /\ f_skip f' = f_skip f.
Lemma kept_refl f : kept f f. Proof. unfold kept, fixed. intuition. Qed.
Lemma kept_trans f g h : kept f g -> kept g h -> kept f h.
Proof. unfold kept, fixed. intuition congruence. Qed.
Lemma still_kept f g : still Env c f g -> kept f g.
Proof. unfold still, same, kept. intuition. Qed.
Lemma after_kept (v : vol I P) f g : after_vol v f g -> kept f g.
Proof. unfold after_vol, kept. intuition. Qed.

Lemma need_bs (s : st W I P) : f_passive_bs (s_fp s) = Some b -> forall e,
  spec (need (f_passive_bs (s_fp s)) e) s [] (fun k s' t => k = b /\ s' = s /\ t = []).
Proof. intros H e. rewrite H. apply spec_ret. auto. Qed.
Lemma multiple_spec i (s : st W I P) :
  spec (is_multiple i b) s [] (fun k s' t => b <> 0%nat /\ k = Nat.eqb (i mod b) 0 /\ s' = s /\ t = []).
Proof. unfold is_multiple. destruct (Nat.eqb_spec b 0); [apply spec_raise|apply spec_ret; auto]. Qed.

Lemma batch_begin_spec i s : f_passive_bs (s_fp s) = Some b -> test_of (s_fp s) = false ->
  spec (batch_begin Env cbs i) s (if Nat.eqb (i mod b) 0 then on c VolumeBatchBegin else [])
    (fun _ s' t => b <> 0%nat /\ kept (s_fp s) (s_fp s') /\
       f_loss (s_fp s') = (if Nat.eqb (i mod b) 0 then None else f_loss (s_fp s)) /\
       t = if Nat.eqb (i mod b) 0 then on c VolumeBatchBegin else []).
Proof.
  intros Hb Ht. unfold batch_begin.
  set (E := if Nat.eqb (i mod b) 0 then on c VolumeBatchBegin else []).
  change E with ([] ++ [] ++ [] ++ [] ++ E). subst E.
  eapply spec_bind; [apply spec_getf|intros m s0 l0 (-> & -> & ->)]. unfold test_of in Ht. rewrite Ht.
  eapply spec_bind; [apply spec_getf|intros m s0 l0 (-> & -> & ->)].
  eapply spec_bind; [apply need_bs; exact Hb|intros m s0 l0 (-> & -> & ->)].
  eapply spec_bind; [apply multiple_spec|intros m s0 l0 (Hb0 & -> & -> & ->)].
  destruct (Nat.eqb (i mod b) 0).
  - eapply spec_conseq with (E := [] ++ on c VolumeBatchBegin); [|reflexivity|intros a s' t H; exact H].
    eapply spec_bind; [apply spec_modf|intros [] s1 l1 (H1 & ->)].
    eapply spec_conseq; [apply (call_still Env c HT); reflexivity|reflexivity|intros [] s2 l2 (H2 & ->)].
    split; [exact Hb0|]. rewrite H1 in H2. unfold still, same, kept, fixed in *. cbn in H2. cbn [app]. intuition congruence.
  - apply spec_ret. split; [exact Hb0|]. split; [apply kept_refl|auto].
Qed.

Lemma batch_end_spec d i s vs : f_passive_bs (s_fp s) = Some b -> test_of (s_fp s) = false -> b <> 0%nat -> f_loss (s_fp s) = loss_of vs ->
  spec (batch_end Env cbs d i) s (if Nat.eqb ((i + 1) mod b) 0 then doc_end c (train_of (s_fp s)) true [] else [])
    (fun stop s' t =>
       if Nat.eqb ((i + 1) mod b) 0
       then stop = Nat.ltb (e_len Env d - (i + 1)) b /\ kept (s_fp s) (s_fp s') /\ t = doc_end c (train_of (s_fp s)) (f_skip (s_fp s)) vs
       else stop = false /\ s' = s /\ t = []).
Proof.
  intros Hb Ht Hb0 Hl. unfold batch_end.
  set (E := if Nat.eqb ((i + 1) mod b) 0 then doc_end c (train_of (s_fp s)) true [] else []).
  change E with ([] ++ [] ++ [] ++ [] ++ E). subst E.
  eapply spec_bind; [apply spec_getf|intros m s0 l0 (-> & -> & ->)]. unfold test_of in Ht. rewrite Ht.
  eapply spec_bind; [apply spec_getf|intros m s0 l0 (-> & -> & ->)].
  eapply spec_bind; [apply need_bs; exact Hb|intros m s0 l0 (-> & -> & ->)].
  eapply spec_bind; [apply multiple_spec|intros m s0 l0 (_ & -> & -> & ->)].
  destruct (Nat.eqb ((i + 1) mod b) 0); [|apply spec_ret; auto].
  eapply spec_conseq.
  { eapply spec_bind; [apply spec_getf|intros l s0 l0 (-> & -> & ->)]. rewrite Hl.
    cbv zeta. rewrite <- (mean_loss_of vs).
    eapply spec_bind; [apply spec_modf|intros [] s1 l1 (H1 & ->)].
    eapply spec_bind with (E1 := [Mean None]); [eapply spec_conseq; [apply spec_emit|reflexivity|intros a s' t H; exact H]|intros [] s2 l2 (H2 & ->)].
    eapply spec_bind; [apply (call_still Env c HT); reflexivity|intros [] s3 l3 (H3 & ->)].
    eapply spec_bind; [apply spec_getf|intros st0 s0 l0 (-> & -> & ->)].
    assert (H13 : still Env c (set_mean (mean_loss c vs) (s_fp s)) (s_fp s3)) by (rewrite <- H1, <- H2; exact H3).
    replace (is_train (f_state (s_fp s3))) with (train_of (s_fp s)) by (unfold train_of; destruct H13 as [[[H13 _] _] _]; cbn in H13; now rewrite H13).
    eapply spec_bind with (E1 := if train_of (s_fp s) then doc_update c true None else [])
      (Q1 := fun _ s' t => still Env c (s_fp s3) (s_fp s') /\ t = if train_of (s_fp s) then doc_update c (f_skip (s_fp s)) (mean_loss c vs) else []).
    { destruct (train_of (s_fp s)).
      - eapply spec_conseq; [apply update_spec|reflexivity|intros [] s' t (K1 & ->)]. split; [exact K1|].
        destruct H13 as [[_ [_ [F1 _]]] F2]. cbn in F1, F2. now rewrite F1, F2.
      - apply spec_ret. split; [apply still_refl|reflexivity]. }
    intros [] s4 l4 (H4 & ->).
    eapply spec_bind; [apply spec_getf|intros m s0 l0 (-> & -> & ->)].
    assert (H14 : kept (s_fp s) (s_fp s4)).
    { apply still_kept in H4. apply kept_trans with (s_fp s3); [|exact H4]. unfold still, same, kept, fixed in *. cbn in H13. intuition. }
    eapply spec_bind; [apply need_bs; destruct H14 as [(_ & _ & K & _) _]; congruence|intros m s0 l0 (-> & -> & ->)].
    apply spec_ret.
    instantiate (1 := fun stop s' t => stop = Nat.ltb (e_len Env d - (i + 1)) b /\ kept (s_fp s) (s_fp s') /\ t = doc_end c (train_of (s_fp s)) (f_skip (s_fp s)) vs).
    cbv beta. split; [reflexivity|]. split; [exact H14|]. unfold doc_end. cbn [app]. now rewrite app_nil_r. }
  - unfold doc_end. cbn [app]. now rewrite app_nil_r.
  - auto.
Qed.

(* one volume, with what comes before and after *)
Lemma vol_spec {A} d i s (k : M W I P A) E (Q : A -> st W I P -> items -> Prop) :
  agrees c (s_fp s) -> f_passive_bs (s_fp s) = Some b -> test_of (s_fp s) = false ->
  (forall v s' t, b <> 0%nat -> loss_iff (has_loss Env) v -> kept (s_fp s) (s_fp s') ->
     f_loss (s_fp s') = opt_add (if Nat.eqb (i mod b) 0 then None else f_loss (s_fp s)) (v_loss v) ->
     t = (if Nat.eqb (i mod b) 0 then on c VolumeBatchBegin else []) ++ doc_vol c v ->
     spec k s' E (fun a s2 t2 => Q a s2 (t ++ t2))) ->
  spec (x <~ world (e_next Env d i) ;; _ <~ modf (set_volume_id (Some i)) ;; _ <~ batch_begin Env cbs i ;;
        _ <~ act (Loaded x) (e_load Env x) ;; _ <~ call Env cbs VolumeBegin ;; _ <~ scan_volume Env cbs ;; _ <~ call Env cbs VolumeEnd ;; k)
    s ((if Nat.eqb (i mod b) 0 then on c VolumeBatchBegin else []) ++ doc_vol c blank ++ E) Q.
Proof.
  intros Ha Hb Ht Hk. eapply spec_conseq.
  { eapply spec_bind; [apply spec_world|intros x s1 l1 (H1 & ->)].
    eapply spec_bind; [apply spec_modf|intros [] s2 l2 (H2 & ->)].
    assert (K2 : kept (s_fp s) (s_fp s2)) by (rewrite H2, H1; unfold kept, fixed; cbn; auto 10).
    assert (L2 : f_loss (s_fp s2) = f_loss (s_fp s)) by (now rewrite H2, H1).
    destruct K2 as [K2 S2].
    eapply spec_bind.
    { apply batch_begin_spec; [destruct K2 as (_ & _ & K & _); congruence|unfold test_of; destruct K2 as (K & _); now rewrite K]. }
    intros [] s3 l3 (Hb0 & [K3 S3] & L3 & ->).
    eapply spec_bind with (E1 := [Loaded tt]); [eapply spec_conseq; [apply spec_act|reflexivity|intros a s' t H; exact H]|intros [] s4 l4 (H4 & ->)].
    eapply spec_bind; [apply (call_still Env c HT); reflexivity|intros [] s5 l5 (H5 & ->)].
    rewrite H4 in H5. destruct H5 as [[K5 [L5 _]] S5].
    assert (K : kept (s_fp s) (s_fp s5)).
    { apply kept_trans with (s_fp s3); [apply kept_trans with (s_fp s2)|]; unfold kept; auto. }
    eapply spec_bind; [apply (scan_volume_spec Env c HT x)|].
    { eapply agrees_fixed; [exact (proj1 K)|exact Ha]. }
    intros [] s6 l6 (v & Hx & Hv & -> & H6 & _).
    eapply spec_bind; [apply (call_still Env c HT); reflexivity|intros [] s7 l7 (H7 & ->)].
    pose proof (still_after _ _ _ _ _ _ H6 H7) as H67.
    replace (negb (test_of (s_fp s5)) && has_loss Env)%bool with (has_loss Env) in Hv
      by (replace (test_of (s_fp s5)) with false by (unfold test_of in *; destruct K as [(K & _) _]; now rewrite K); reflexivity).
    eapply spec_conseq; [eapply (Hk v s7 _ Hb0 Hv); [| |reflexivity]|reflexivity|].
    - apply kept_trans with (s_fp s5); [exact K|]. eapply after_kept. exact H67.
    - destruct H67 as (_ & _ & _ & L7). rewrite L7, L5, L3, L2. reflexivity.
    - intros a s8 t8 H8. instantiate (1 := Q). unfold doc_vol in H8. unfold doc_vol_tail. rewrite Hx in H8.
      flat. flat_in H8. exact H8. }
  - unfold doc_vol. cbn [blank v_item v_pred v_loss]. flat. reflexivity.
  - auto.
Qed.

(* the rest of a batch of which the volumes acc are done *)
Lemma batch_tail d : forall m rest i acc s E (Q : unit -> st W I P -> items -> Prop),
  agrees c (s_fp s) -> f_passive_bs (s_fp s) = Some b -> test_of (s_fp s) = false ->
  (0 < m <= b)%nat -> length acc = (b - m)%nat -> ((i + m) mod b = 0)%nat -> e_len Env d = (i + m + rest)%nat ->
  (m < b -> f_loss (s_fp s) = loss_of acc)%nat ->
  (forall vs s' t, length vs = m -> Forall (loss_iff (has_loss Env)) vs -> kept (s_fp s) (s_fp s') ->
     t = (if Nat.eqb m b then on c VolumeBatchBegin else []) ++ flat_map (doc_vol c) vs ++ doc_end c (train_of (s_fp s)) (f_skip (s_fp s)) (acc ++ vs) ->
     if Nat.ltb rest b then E = [] /\ Q tt s' t else spec (scan_from Env cbs d rest (i + m)) s' E (fun a s2 t2 => Q a s2 (t ++ t2))) ->
  spec (scan_from Env cbs d (m + rest) i) s
    ((if Nat.eqb m b then on c VolumeBatchBegin else []) ++ concat (repeat (doc_vol c blank) m) ++ doc_end c (train_of (s_fp s)) true [] ++ E) Q.
Proof.
  induction m as [|m IH]; intros rest i acc s E Q Ha Hb Ht Hm Hacc Hi Hlen Hloss HQ; [lia|].
  cbn [plus scan_from].
  assert (Hfirst : Nat.eqb (i mod b) 0 = Nat.eqb (S m) b).
  { destruct (Nat.eqb_spec (S m) b) as [Em|Em].
    - apply Nat.eqb_eq. rewrite Em in Hi. replace (i + b)%nat with (i + 1 * b)%nat in Hi by lia. rewrite Nat.mod_add in Hi by lia. exact Hi.
    - apply Nat.eqb_neq. intros Hz. apply Nat.mod_divides in Hz; [|lia]. destruct Hz as [q ->].
      replace (b * q + S m)%nat with (S m + q * b)%nat in Hi by lia. rewrite Nat.mod_add in Hi by lia. rewrite Nat.mod_small in Hi by lia. discriminate. }
  assert (Hlast : Nat.eqb ((i + 1) mod b) 0 = Nat.eqb m 0).
  { destruct (Nat.eqb_spec m 0) as [Em|Em].
    - apply Nat.eqb_eq. subst m. exact Hi.
    - apply Nat.eqb_neq. intros Hz. apply Nat.mod_divides in Hz; [|lia]. destruct Hz as [q Hq].
      replace (i + S m)%nat with (m + q * b)%nat in Hi by lia. rewrite Nat.mod_add in Hi by lia. rewrite Nat.mod_small in Hi by lia. lia. }
  cbn [repeat concat].
  eapply spec_conseq; [apply vol_spec with (E := concat (repeat (doc_vol c blank) m) ++ doc_end c (train_of (s_fp s)) true [] ++ E)| |intros a s' t H; exact H].
  - exact Ha.
  - exact Hb.
  - exact Ht.
  - intros v s1 t1 Hb0 Hv K1 L1 ->.
    assert (Ha1 : agrees c (s_fp s1)) by (eapply agrees_fixed; [exact (proj1 K1)|exact Ha]).
    assert (Hb1 : f_passive_bs (s_fp s1) = Some b) by (destruct K1 as [(_ & _ & K & _) _]; congruence).
    assert (Ht1 : test_of (s_fp s1) = false) by (unfold test_of in *; destruct K1 as [(K & _) _]; now rewrite K).
    assert (Htr : train_of (s_fp s1) = train_of (s_fp s)) by (unfold train_of in *; destruct K1 as [(K & _) _]; now rewrite K).
    assert (HL : f_loss (s_fp s1) = loss_of (acc ++ [v])).
    { rewrite L1, loss_of_snoc, Hfirst. f_equal. destruct (Nat.eqb_spec (S m) b) as [Em|Em]; [|apply Hloss; lia].
      destruct acc; [reflexivity|cbn in Hacc; lia]. }
    pose proof (batch_end_spec d i s1 (acc ++ [v]) Hb1 Ht1 Hb0 HL) as Hend.
    rewrite Hlast in Hend. rewrite Hfirst in *.
    destruct (Nat.eqb_spec m 0) as [Em|Em].
    + subst m. cbn [repeat concat app]. eapply spec_bind; [rewrite <- Htr; exact Hend|].
      intros stop s2 t2 (-> & K2 & ->).
      specialize (HQ [v] s2 ((if Nat.eqb 1 b then on c VolumeBatchBegin else []) ++ doc_vol c v ++ doc_end c (train_of (s_fp s)) (f_skip (s_fp s)) (acc ++ [v])) eq_refl).
      assert (HQ' := HQ (Forall_cons _ Hv (Forall_nil _)) (kept_trans _ _ _ K1 K2)). clear HQ.
      cbn [flat_map] in HQ'. rewrite app_nil_r in HQ'. specialize (HQ' eq_refl).
      rewrite Htr. replace (f_skip (s_fp s1)) with (f_skip (s_fp s)) by (symmetry; exact (proj2 K1)).
      replace (e_len Env d - (i + 1))%nat with rest by lia.
      destruct (Nat.ltb rest b).
      * destruct HQ' as [-> HQ']. apply spec_ret. flat. rewrite app_nil_r. exact HQ'.
      * replace (S i) with (i + 1)%nat by lia. eapply spec_conseq; [exact HQ'|reflexivity|].
        intros a s3 t3 H3. flat. flat_in H3. exact H3.
    + eapply spec_conseq with (E := [] ++ concat (repeat (doc_vol c blank) m) ++ doc_end c (train_of (s_fp s)) true [] ++ E);
        [|reflexivity|intros a s' t H; exact H].
      eapply spec_bind; [exact Hend|]. intros stop s2 t2 (-> & -> & ->).
      eapply spec_conseq.
      { eapply (IH rest (S i) (acc ++ [v]) s1 E (fun a s2 t2 => Q a s2 (((if Nat.eqb (S m) b then on c VolumeBatchBegin else []) ++ doc_vol c v) ++ t2))).
        - exact Ha1.
        - exact Hb1.
        - exact Ht1.
        - lia.
        - rewrite app_length. cbn. lia.
        - replace (S i + m)%nat with (i + S m)%nat by lia. exact Hi.
        - lia.
        - intros _. exact HL.
        - intros vs s3 t3 Hvs Fvs K3 ->.
          specialize (HQ (v :: vs) s3 (((if Nat.eqb (S m) b then on c VolumeBatchBegin else []) ++ doc_vol c v) ++ flat_map (doc_vol c) vs ++
              doc_end c (train_of (s_fp s)) (f_skip (s_fp s)) ((acc ++ [v]) ++ vs))).
          assert (HQ' := HQ (f_equal S Hvs) (Forall_cons _ Hv Fvs) (kept_trans _ _ _ K1 K3)). clear HQ.
          cbn [flat_map] in HQ'. flat_in HQ'. specialize (HQ' eq_refl).
          replace (Nat.eqb m b) with false by (symmetry; apply Nat.eqb_neq; lia).
          rewrite Htr. replace (f_skip (s_fp s1)) with (f_skip (s_fp s)) by (symmetry; exact (proj2 K1)).
          replace (S i + m)%nat with (i + S m)%nat by lia.
          destruct (Nat.ltb rest b).
          + flat. exact HQ'.
          + eapply spec_conseq; [exact HQ'|reflexivity|]. intros a s4 t4 H4. flat. flat_in H4. exact H4. }
      * rewrite Htr. replace (Nat.eqb m b) with false by (symmetry; apply Nat.eqb_neq; lia). reflexivity.
      * intros a s3 t3 H3. cbn [app]. exact H3.
  - rewrite Hfirst. flat. reflexivity.
Qed.

(* fewer volumes than a batch: the batch is begun and never ended *)
Lemma short_tail d : forall m i s,
  agrees c (s_fp s) -> f_passive_bs (s_fp s) = Some b -> test_of (s_fp s) = false -> (i + m < b)%nat ->
  spec (scan_from Env cbs d m i) s
    ((if (Nat.eqb i 0 && negb (Nat.eqb m 0))%bool then on c VolumeBatchBegin else []) ++ concat (repeat (doc_vol c blank) m))
    (fun _ s' t => kept (s_fp s) (s_fp s') /\ exists vs, length vs = m /\ Forall (loss_iff (has_loss Env)) vs /\
       t = (if (Nat.eqb i 0 && negb (Nat.eqb m 0))%bool then on c VolumeBatchBegin else []) ++ flat_map (doc_vol c) vs).
Proof.
  induction m as [|m IH]; intros i s Ha Hb Ht Hi.
  - cbn [scan_from repeat concat]. replace (Nat.eqb i 0 && negb (Nat.eqb 0 0))%bool with false by (destruct (Nat.eqb i 0); reflexivity).
    apply spec_ret. split; [apply kept_refl|]. exists []. auto.
  - cbn [scan_from repeat concat]. replace (Nat.eqb i 0 && negb (Nat.eqb (S m) 0))%bool with (Nat.eqb i 0) by (destruct (Nat.eqb i 0); reflexivity).
    assert (Hmod : (i mod b = i)%nat) by (apply Nat.mod_small; lia).
    eapply spec_conseq; [apply vol_spec with (E := [] ++ [] ++ concat (repeat (doc_vol c blank) m))| |intros a s' t H; exact H].
    + exact Ha.
    + exact Hb.
    + exact Ht.
    + intros v s1 t1 Hb0 Hv K1 L1 ->.
      assert (Ha1 : agrees c (s_fp s1)) by (eapply agrees_fixed; [exact (proj1 K1)|exact Ha]).
      assert (Hb1 : f_passive_bs (s_fp s1) = Some b) by (destruct K1 as [(_ & _ & K & _) _]; congruence).
      assert (Ht1 : test_of (s_fp s1) = false) by (unfold test_of in *; destruct K1 as [(K & _) _]; now rewrite K).
      assert (Hlast : Nat.eqb ((i + 1) mod b) 0 = false) by (apply Nat.eqb_neq; rewrite Nat.mod_small by lia; lia).
      eapply spec_bind with (Q1 := fun stop s' t => stop = false /\ s' = s1 /\ t = []).
      * unfold batch_end. change (@nil (item unit unit)) with (@nil (item unit unit) ++ [] ++ [] ++ [] ++ []).
        eapply spec_bind; [apply spec_getf|intros x s0 l0 (-> & -> & ->)]. unfold test_of in Ht1. rewrite Ht1.
        eapply spec_bind; [apply spec_getf|intros x s0 l0 (-> & -> & ->)].
        eapply spec_bind; [apply need_bs; exact Hb1|intros x s0 l0 (-> & -> & ->)].
        eapply spec_bind; [apply multiple_spec|intros x s0 l0 (_ & -> & -> & ->)].
        rewrite Hlast. apply spec_ret. auto.
      * intros stop s2 t2 (-> & -> & ->). eapply spec_conseq.
        { apply (IH (S i) s1 Ha1 Hb1 Ht1). lia. }
        { reflexivity. }
        { intros a s3 t3 (K3 & vs & Hl & Fv & ->). split; [now apply kept_trans with (s_fp s1)|].
          exists (v :: vs). split; [cbn; now rewrite Hl|]. split; [now constructor|].
          rewrite Hmod. cbn [flat_map]. flat. reflexivity. }
    + rewrite Hmod. cbn [app]. flat. reflexivity.
Qed.
End S.
