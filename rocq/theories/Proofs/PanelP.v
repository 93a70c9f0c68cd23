(* C17: panels and detector layers record one hit per muon and panel. *)
From Coq Require Import ZArith Psatz Permutation Sorted.
From Verif Require Import Base.Trig Model.Volume Spec.MuonSpec Spec.AngleSpec Spec.LayerSpec Spec.VolumeSpec
  Proofs.MuonBatchP Proofs.MuonConserve Proofs.MuonAngles Proofs.MuonMoves Proofs.LayerP Proofs.PdgP Proofs.LayerCross.
Open Scope R_scope.
Open Scope string_scope.
Open Scope list_scope.

(* ---------- sorting ---------- *)
Lemma insert_down_perm z l : Permutation (insert_down z l) (z :: l).
Proof.
  induction l as [|x l IH]; simpl; auto. destruct (Rle_dec x z); auto.
  rewrite IH. apply perm_swap.
Qed.
Lemma sort_down_perm l : Permutation (sort_down l) l.
Proof. induction l as [|x l IH]; simpl; auto. rewrite insert_down_perm. auto. Qed.
Lemma insert_down_sorted z l : StronglySorted Rge l -> StronglySorted Rge (insert_down z l).
Proof.
  induction 1 as [|x l Hs IH Hx]; simpl.
  - constructor; constructor.
  - destruct (Rle_dec x z).
    + constructor; [constructor; auto|]. constructor; [lra|]. eapply Forall_impl; [|exact Hx]. intros; simpl in *; lra.
    + constructor; auto. eapply Permutation_Forall; [symmetry; apply insert_down_perm|]. constructor; [lra|auto].
Qed.
Lemma sort_down_sorted l : StronglySorted Rge (sort_down l).
Proof. induction l as [|x l IH]; simpl; [constructor|]. apply insert_down_sorted; auto. Qed.

Lemma sorted_unique l : forall l', StronglySorted Rge l -> StronglySorted Rge l' -> Permutation l l' -> l = l'.
Proof.
  induction l as [|x l IH]; intros l' H1 H2 P.
  - apply Permutation_nil in P. auto.
  - destruct l' as [|y l']; [symmetry in P; apply Permutation_nil in P; discriminate|].
    inversion H1 as [|? ? S1 F1]; subst. inversion H2 as [|? ? S2 F2]; subst.
    rewrite Forall_forall in F1, F2.
    assert (x = y) as ->.
    { assert (In x (y :: l')) as Hx by (eapply Permutation_in; [exact P|left; auto]).
      assert (In y (x :: l)) as Hy by (eapply Permutation_in; [symmetry; exact P|left; auto]).
      destruct Hx as [->|Hx]; auto. destruct Hy as [->|Hy]; auto.
      specialize (F1 _ Hy). specialize (F2 _ Hx). lra. }
    f_equal. apply IH; auto. eapply Permutation_cons_inv; eauto.
Qed.

Lemma sorted_snoc {A} (R : A -> A -> Prop) l a : StronglySorted R l -> Forall (fun x => R x a) l -> StronglySorted R (l ++ [a]).
Proof.
  induction 1 as [|x l Hs IH Hx]; simpl; intro F; [constructor; constructor|].
  inversion F; subst. constructor; auto. apply Forall_app. split; auto.
Qed.
Lemma sorted_rev l : StronglySorted Rle l -> StronglySorted Rge (rev l).
Proof.
  induction 1 as [|x l Hs IH Hx]; simpl; [constructor|]. apply sorted_snoc; auto.
  apply Forall_rev. eapply Forall_impl; [|exact Hx]. intros; simpl in *; lra.
Qed.

Lemma map_nth_seq {A} (l : list A) d : map (fun i => nth i l d) (seq 0 (len l)) = l.
Proof.
  induction l as [|a l IH]; simpl; auto. f_equal. rewrite <- seq_shift, map_map. exact IH.
Qed.

Lemma zorder_heights argsort D : is_argsort argsort ->
  map (fun i => nth i (map pn_z (dl_panels D)) 0) (panel_zorder argsort D) = sort_down (map pn_z (dl_panels D)).
Proof.
  intro Ha. destruct (Ha (map pn_z (dl_panels D))) as [P S]. apply sorted_unique.
  - unfold panel_zorder. rewrite map_rev. apply sorted_rev; auto.
  - apply sort_down_sorted.
  - rewrite sort_down_perm. unfold panel_zorder. rewrite map_rev, <- Permutation_rev.
    transitivity (map (fun i => nth i (map pn_z (dl_panels D)) 0) (seq 0 (len (map pn_z (dl_panels D))))).
    + apply Permutation_map; auto.
    + rewrite map_nth_seq; auto.
Qed.
Lemma zorder_bound argsort D i : is_argsort argsort -> In i (panel_zorder argsort D) -> (i < len (dl_panels D))%nat.
Proof.
  intros Ha Hi. unfold panel_zorder in Hi. apply in_rev in Hi. destruct (Ha (map pn_z (dl_panels D))) as [P _].
  eapply Permutation_in in Hi; [|exact P]. apply in_seq in Hi. rewrite map_length in Hi. lia.
Qed.

(* ---------- the hit dictionary ---------- *)
Lemma recorded_append {H} p v hits pos (b : batch H) :
  NoDup (map fst hits) ->
  recorded p v (b_hits (append_hits hits pos b)) =
  recorded p v (b_hits b) ++ (if String.eqb p pos then match assoc v hits with Some t => [t] | None => [] end else []).
Proof.
  unfold append_hits. cbn [b_hits]. generalize (b_hits b) as d. clear b.
  induction hits as [|[k t] hits IH]; intros d Hn.
  - simpl. destruct (String.eqb p pos); rewrite app_nil_r; auto.
  - cbn [fold_left fst snd]. inversion Hn as [|? ? Hk Hn']; subst. rewrite IH by auto.
    fold (add1 H pos k t d). unfold recorded at 1. rewrite assoc2_add1. cbn [assoc].
    destruct (String.eqb_spec p pos) as [->|Hp]; cbn [andb].
    + destruct (String.eqb_spec v k) as [->|Hv].
      * assert (assoc k hits = None) as ->.
        { destruct (assoc k hits) as [t'|] eqn:E; auto. exfalso. apply Hk. clear - E.
          induction hits as [|[k' w] hits IH]; simpl in *; [discriminate|]. destruct (String.eqb_spec k k'); auto. }
        rewrite app_nil_r. unfold recorded. auto.
      * unfold recorded. auto.
    + unfold recorded. auto.
Qed.

Lemma hits_ok_append {H} n hits pos (b : batch H) :
  hits_ok H n (b_hits b) -> (forall k t, In (k, t) hits -> len t = n) -> hits_ok H n (b_hits (append_hits hits pos b)).
Proof.
  unfold append_hits. cbn [b_hits]. generalize (b_hits b) as d. clear b.
  induction hits as [|[k t] hits IH]; intros d Hd Hl; cbn [fold_left fst snd]; auto.
  apply IH.
  - apply hits_ok_add1; auto. eapply Hl; left; eauto.
  - intros k' t' Hin. eapply Hl; right; eauto.
Qed.

Lemma hits_ok_aligned {H} n (d : hits_dict H) : hits_ok H n d -> aligned n d.
Proof.
  intros Hd p vs v ts t Hp Hv Ht. unfold hits_ok in Hd. rewrite Forall_forall in Hd. specialize (Hd _ Hp). cbn in Hd.
  rewrite Forall_forall in Hd. destruct (Hd _ Hv) as [_ Hts]. cbn in Hts. rewrite Forall_forall in Hts. auto.
Qed.

(* ---------- one panel ---------- *)
Lemma mapM_inv2 {A B} (f : A -> res B) l r : mapM f l = Ok r -> Forall2 (fun a b => f a = Ok b) l r.
Proof.
  revert r; induction l as [|a l IH]; simpl; intros r E; [injection E as <-; constructor|].
  apply bind_ok in E as [b [E1 E]]. apply bind_ok in E as [bs [E2 E]]. injection E as <-. constructor; auto.
Qed.

Lemma Forall2_len {A B} (R : A -> B -> Prop) l l' : Forall2 R l l' -> len l = len l'.
Proof. induction 1; simpl; auto. Qed.
Lemma Forall2_imp {A B} (R S : A -> B -> Prop) l l' : (forall a b, R a b -> S a b) -> Forall2 R l l' -> Forall2 S l l'.
Proof. intro I. induction 1; constructor; auto. Qed.

Lemma Forall2_nth {A B} (R : A -> B -> Prop) l l' : Forall2 R l l' ->
  forall i a, nth_error l i = Some a -> exists b, nth_error l' i = Some b /\ R a b.
Proof.
  induction 1 as [|a b l l' Hab _ IH]; intros [|i] x Hx; simpl in *; try discriminate.
  - injection Hx as <-. eauto.
  - eauto.
Qed.

Definition q_reco (q : hrow * hrow * hrow * hrow) : hrow := fst (fst (fst q)).
Definition q_gen (q : hrow * hrow * hrow * hrow) : hrow := snd (fst (fst q)).
Definition q_unc (q : hrow * hrow * hrow * hrow) : hrow := snd (fst q).
Definition q_eff (q : hrow * hrow * hrow * hrow) : hrow := snd q.

Lemma panel_hits_inv P tr rng ms hits :
  panel_hits P tr rng ms = Ok hits ->
  exists rows, hits = [("reco_xyz", map q_reco rows); ("gen_xyz", map q_gen rows); ("unc_xyz", map q_unc rows); ("eff", map q_eff rows)]
    /\ len rows = len ms
    /\ forall i u, nth_error ms i = Some u -> exists q, nth_error rows i = Some q /\ hit1 P tr (rng i) (mx u) (my u) = Ok q.
Proof.
  unfold panel_hits. intro E. apply bind_ok in E as [rows [E1 E]]. injection E as <-. exists rows. split; auto.
  apply mapM_inv2 in E1.
  assert (len rows = len ms) as L.
  { apply Forall2_len in E1. rewrite combine_length, seq_length, Nat.min_id in E1. auto. }
  split; auto. intros i u Hu.
  assert (nth_error (combine (seq 0 (len ms)) ms) i = Some (i, u)) as Hc.
  { clear E1 L rows. assert (forall k, nth_error (combine (seq k (len ms)) ms) i = Some ((k + i)%nat, u)) as G; [|apply (G 0%nat)].
    revert i Hu. induction ms as [|v ms IH]; intros [|i] Hu k; simpl in *; try discriminate.
    - injection Hu as ->. rewrite Nat.add_0_r; auto.
    - rewrite (IH i Hu). f_equal; f_equal; lia. }
  destruct (Forall2_nth _ _ _ E1 _ _ Hc) as (q & Hq & Ha). eauto.
Qed.

Lemma hit1_gen P tr g x y q : hit1 P tr g x y = Ok q ->
  q_gen q = [x; y; Fin (pn_z P)] /\ nth_error (q_reco q) 2 = Some (Fin (pn_z P))
  /\ len (q_reco q) = 3%nat /\ len (q_unc q) = 3%nat /\ len (q_eff q) = 1%nat.
Proof.
  unfold hit1. intro E. apply bind_ok in E as [r [E1 E]]. apply bind_ok in E as [e [E2 E]]. injection E as <-. cbn. auto.
Qed.

Lemma panel_keys rows :
  NoDup (map fst [("reco_xyz", map q_reco rows); ("gen_xyz", map q_gen rows); ("unc_xyz", map q_unc rows); ("eff", map q_eff rows)]).
Proof. simpl. repeat constructor; simpl; intuition discriminate. Qed.

(* ---------- detector layers ---------- *)
Lemma at_height_z c z : downwards c -> mz (at_height c z) = Fin z.
Proof.
  intro Hd. unfold at_height. rewrite along_z. f_equal. pose proof (downwards_cos c Hd). field. lra.
Qed.
Lemma fly_to c s z : downwards c -> go_dz1 (xsub (mz (along c s)) (Fin z)) (along c s) = at_height c z.
Proof.
  intro Hd. pose proof (downwards_cos c Hd). rewrite along_z. unfold xsub; cbn [xadd xopp].
  rewrite go_dz_along by lra. unfold at_height. apply along_eq. field. lra.
Qed.

Lemma visit_spec D tr rng cs : (forall c, In c cs -> downwards c) ->
  forall order k s (b b' : batch hrow),
  b_muons b = map (fun c => along c (s c)) cs -> hits_ok hrow (len cs) (b_hits b) ->
  visit_panels D tr rng order k b = Ok b' ->
  exists ps, map Some ps = map (nth_error (dl_panels D)) order
  /\ (exists s', b_muons b' = map (fun c => along c (s' c)) cs)
  /\ hits_ok hrow (len cs) (b_hits b')
  /\ b_removed b' = b_removed b /\ b_hist b' = b_hist b
  /\ (forall p v, p <> dl_pos D -> recorded p v (b_hits b') = recorded p v (b_hits b))
  /\ (forall v, ~ In v hit_variables -> recorded (dl_pos D) v (b_hits b') = recorded (dl_pos D) v (b_hits b))
  /\ recorded (dl_pos D) "gen_xyz" (b_hits b')
     = recorded (dl_pos D) "gen_xyz" (b_hits b) ++ map (fun P => map (fun c => xyz (at_height c (pn_z P))) cs) ps
  /\ (forall v, In v hit_variables -> exists ts,
        recorded (dl_pos D) v (b_hits b') = recorded (dl_pos D) v (b_hits b) ++ ts
        /\ Forall2 (fun t P => len t = len cs /\
             exists j, nth_error ps j = Some P /\
             forall i c, nth_error cs i = Some c -> exists q, 
               hit1 P tr (rng (k + j)%nat i) (mx (at_height c (pn_z P))) (my (at_height c (pn_z P))) = Ok q
               /\ assoc v [("reco_xyz", q_reco q); ("gen_xyz", q_gen q); ("unc_xyz", q_unc q); ("eff", q_eff q)] = nth_error t i) ts ps).
Proof.
  intros Hd. induction order as [|i order IH]; intros k s b b' Hm Hh E; cbn [visit_panels] in E.
  - injection E as <-. exists []. split; auto. split; [eauto|]. split; auto. split; auto. split; auto. split; auto. split; auto.
    split; [rewrite app_nil_r; auto|]. intros v _. exists []. rewrite app_nil_r. split; auto.
  - destruct (nth_error (dl_panels D) i) as [P|] eqn:EP; [|discriminate].
    rewrite propagate_dz_all in E. cbn [bind] in E. cbn [b_muons with_muons] in E.
    assert (map (fun u => go_dz1 (xsub (mz u) (Fin (pn_z P))) u) (b_muons b) = map (fun c => at_height c (pn_z P)) cs) as Em.
    { rewrite Hm, map_map. apply map_ext_in. intros c Hc. apply fly_to; auto. }
    rewrite Em in E. apply bind_ok in E as [hits [Eh E]].
    apply panel_hits_inv in Eh as (rows & -> & Lr & Hrows). rewrite map_length in Lr.
    set (hits := [("reco_xyz", map q_reco rows); ("gen_xyz", map q_gen rows); ("unc_xyz", map q_unc rows); ("eff", map q_eff rows)]) in *.
    set (b1 := append_hits hits (dl_pos D) (with_muons b (map (fun c => at_height c (pn_z P)) cs))) in *.
    assert (hits_ok hrow (len cs) (b_hits b1)) as Hh1.
    { apply hits_ok_append; auto. intros k0 t Hin. unfold hits in Hin. simpl in Hin.
      destruct Hin as [Q|[Q|[Q|[Q|[]]]]]; injection Q as <- <-; rewrite map_length; auto. }
    destruct (IH (S k) (fun c => (g_z c - pn_z P) / cos (g_th c)) b1 b' ) as (ps & Eps & Em' & Hh' & Er & Ehi & Hother & Hov & Hgen & Hv); auto.
    assert (R1 : forall p v, recorded p v (b_hits b1) = recorded p v (b_hits b) ++
      (if String.eqb p (dl_pos D) then match assoc v hits with Some t => [t] | None => [] end else [])).
    { intros p v. unfold b1. rewrite recorded_append by apply panel_keys. reflexivity. }
    exists (P :: ps). split; [simpl; rewrite EP, Eps; auto|]. split; auto. split; auto. split; [rewrite Er; auto|]. split; [rewrite Ehi; auto|].
    split; [|split; [|split]].
    + intros p v Hp. rewrite Hother, R1 by auto. destruct (String.eqb_spec p (dl_pos D)); [congruence|]. apply app_nil_r.
    + intros v Hnv. rewrite Hov, R1, String.eqb_refl by auto.
      assert (assoc v hits = None) as ->; [|apply app_nil_r].
      unfold hits. cbn [assoc]. unfold hit_variables in Hnv. simpl in Hnv.
      destruct (String.eqb_spec v "reco_xyz"); [subst; tauto|]. destruct (String.eqb_spec v "gen_xyz"); [subst; tauto|].
      destruct (String.eqb_spec v "unc_xyz"); [subst; tauto|]. destruct (String.eqb_spec v "eff"); [subst; tauto|]. auto.
    + rewrite Hgen, R1, String.eqb_refl. cbn. rewrite <- app_assoc. f_equal. cbn. f_equal.
      assert (Hr : forall i c, nth_error cs i = Some c -> exists q, nth_error rows i = Some q /\ q_gen q = xyz (at_height c (pn_z P))).
      { intros j c Hc. destruct (Hrows j (at_height c (pn_z P))) as (q & Hq & Hq1).
        - rewrite nth_error_map, Hc. auto.
        - exists q. split; auto. apply hit1_gen in Hq1 as [-> _]. unfold xyz. rewrite at_height_z; auto. apply Hd. eapply nth_error_In; eauto. }
      clear - Hr Lr. revert rows Lr Hr. induction cs as [|c cs IH]; intros [|q rows] Lr Hr; simpl in *; try discriminate; auto.
      f_equal.
      * destruct (Hr 0%nat c eq_refl) as (q' & E & E'). injection E as <-. auto.
      * apply IH; [lia|]. intros j c' Hc. apply (Hr (S j)); auto.
    + intros v Hin. destruct (Hv v Hin) as (ts & Ets & F). rewrite Ets, R1, String.eqb_refl.
      assert (exists f, assoc v hits = Some (map f rows) /\ forall q, assoc v [("reco_xyz", q_reco q); ("gen_xyz", q_gen q); ("unc_xyz", q_unc q); ("eff", q_eff q)] = Some (f q)) as (f & Ef & Ef').
      { unfold hit_variables in Hin. simpl in Hin. destruct Hin as [<-|[<-|[<-|[<-|[]]]]].
        - exists q_reco; split; reflexivity.
        - exists q_gen; split; reflexivity.
        - exists q_unc; split; reflexivity.
        - exists q_eff; split; reflexivity. }
      rewrite Ef. exists (map f rows :: ts). rewrite <- app_assoc. split; auto. constructor.
      * split; [rewrite map_length; auto|]. exists 0%nat. split; auto. intros j c Hc. rewrite Nat.add_0_r.
        destruct (Hrows j (at_height c (pn_z P))) as (q & Hq & Hq1); [rewrite nth_error_map, Hc; auto|].
        exists q. split; auto. rewrite Ef', nth_error_map, Hq. auto.
      * eapply Forall2_imp; [|exact F]. cbn. intros t P' (L & j & Hj & Q). split; auto. exists (S j). split; auto.
        intros i' c Hc. destruct (Q i' c Hc) as (q & Q1 & Q2). exists q. split; auto. rewrite <- Q1. f_equal. f_equal. lia.
Qed.

Lemma visited_heights D order ps :
  map Some ps = map (nth_error (dl_panels D)) order ->
  map pn_z ps = map (fun i => nth i (map pn_z (dl_panels D)) 0) order.
Proof.
  revert ps; induction order as [|i order IH]; intros [|P ps] E; simpl in *; try discriminate; auto.
  injection E as E1 E2. f_equal; auto. symmetry. apply nth_error_nth. rewrite nth_error_map, <- E1. auto.
Qed.

(* everything a detector layer does to a batch of muons that fly downwards *)
Lemma det_forward_spec argsort D tr rng cs (b b' : batch hrow) :
  is_argsort argsort -> (forall c, In c cs -> downwards c) ->
  b_muons b = map g_mu cs -> hits_ok hrow (len cs) (b_hits b) ->
  det_forward argsort D tr rng b = Ok b' ->
  b_muons b' = map (fun c => at_height c (dl_z D - dl_size D)) cs
  /\ b_removed b' = b_removed b /\ b_hist b' = b_hist b
  /\ hits_ok hrow (len cs) (b_hits b')
  /\ (forall p v, p <> dl_pos D \/ ~ In v hit_variables -> recorded p v (b_hits b') = recorded p v (b_hits b))
  /\ recorded (dl_pos D) "gen_xyz" (b_hits b')
     = recorded (dl_pos D) "gen_xyz" (b_hits b)
       ++ map (fun z => map (fun c => xyz (at_height c z)) cs) (sort_down (map pn_z (dl_panels D)))
  /\ exists ps, Permutation ps (dl_panels D) /\ map pn_z ps = sort_down (map pn_z (dl_panels D))
     /\ forall v, In v hit_variables -> exists ts,
        recorded (dl_pos D) v (b_hits b') = recorded (dl_pos D) v (b_hits b) ++ ts
        /\ Forall2 (fun t P => len t = len cs /\
             exists j, nth_error ps j = Some P /\
             forall i c, nth_error cs i = Some c -> exists q,
               hit1 P tr (rng j i) (mx (at_height c (pn_z P))) (my (at_height c (pn_z P))) = Ok q
               /\ assoc v [("reco_xyz", q_reco q); ("gen_xyz", q_gen q); ("unc_xyz", q_unc q); ("eff", q_eff q)] = nth_error t i) ts ps.
Proof.
  intros Ha Hd Hm Hh E. unfold det_forward in E. apply bind_ok in E as [b1 [E1 E]].
  destruct (visit_spec D tr rng cs Hd (panel_zorder argsort D) 0 (fun _ => 0) b b1) as
    (ps & Eps & [s' Em] & Hh1 & Er & Ehi & Ho & Hov & Hgen & Hv); auto.
  { rewrite Hm. apply map_ext. intro c. symmetry. apply along_0. }
  rewrite propagate_dz_all in E. injection E as <-. cbn [b_muons b_removed b_hist b_hits with_muons].
  pose proof (visited_heights D _ _ Eps) as Ez. rewrite (zorder_heights argsort D Ha) in Ez.
  split; [rewrite Em, map_map; apply map_ext_in; intros c Hc; apply fly_to; auto|].
  split; auto. split; auto. split; auto. split.
  { intros p v [Hp|Hnv]; auto. destruct (String.string_dec p (dl_pos D)) as [->|Hp]; auto. }
  split. { rewrite Hgen. f_equal. rewrite <- Ez, map_map. auto. }
  exists ps. split; [|split; auto].
  destruct (Ha (map pn_z (dl_panels D))) as [Pm _].
  assert (Permutation (map Some ps) (map Some (dl_panels D))) as Pm'.
  { rewrite Eps. unfold panel_zorder. rewrite map_rev, <- Permutation_rev. rewrite map_length in Pm.
    rewrite (Permutation_map (nth_error (dl_panels D)) Pm). clear.
    assert (map (nth_error (dl_panels D)) (seq 0 (len (dl_panels D))) = map Some (dl_panels D)) as ->; auto.
    induction (dl_panels D) as [|P l IH]; simpl; auto. f_equal. rewrite <- seq_shift, map_map. exact IH. }
  assert (forall (l : list panel), l = somes (map Some l)) as Hs by (induction l as [|? l IHl]; simpl; [auto|rewrite <- IHl; auto]).
  rewrite (Hs ps), (Hs (dl_panels D)). clear -Pm'. induction Pm' as [|x l l' _ IH|x y l|]; simpl; auto.
  - destruct x; auto.
  - destruct x, y; auto. constructor.
  - etransitivity; eauto.
Qed.

(* ---------- volumes ---------- *)
Lemma sound_cases us : Forall sound us -> exists cs, us = map g_mu cs /\ forall c, In c cs -> downwards c.
Proof.
  induction 1 as [|u us (x & y & z & p & th & ph & -> & Hp & Ht) _ (cs & -> & Hc)].
  - exists []. split; auto. intros c [].
  - exists (GC true x y z (Fin p) th ph 0 :: cs). split; auto. intros c [<-|Hin]; auto.
Qed.
Lemma sound_at_height c z : sound (g_mu c) -> downwards c -> sound (at_height c z).
Proof.
  intros (x & y & z0 & p & th & ph & E & Hp & Ht) Hd. unfold g_mu in E. injection E as _ _ _ E4 _ _.
  unfold at_height, along, dir. rewrite E4. do 6 eexists. split; [reflexivity|]. auto.
Qed.

Lemma recorded_keep {H} k p v (d : hits_dict H) : recorded p v (keep_hits k d) = map (select k) (recorded p v d).
Proof.
  unfold recorded. assert (keep_hits k d = map_hits (map (select k)) d) as -> by reflexivity.
  rewrite assoc2_map. destruct (assoc2 p v d); auto.
Qed.

Definition heights_ok (v : string) (t : list hrow) (z : R) : Prop :=
  (v = "reco_xyz" \/ v = "gen_xyz" -> Forall (fun row => nth_error row 2 = Some (Fin z)) t)
  /\ Forall (fun row => len row = entries v) t.
Definition vol_inv (done : list layer) (b : batch hrow) : Prop :=
  Forall sound (b_muons b) /\ hits_ok hrow (len (b_muons b)) (b_hits b)
  /\ (forall p v, ~ In v hit_variables -> recorded p v (b_hits b) = [])
  /\ (forall p v, In v hit_variables -> Forall2 (heights_ok v) (recorded p v (b_hits b)) (hit_heights p done)).

Lemma Forall2_map_l {A A' B} (R : A' -> B -> Prop) (f : A -> A') l l' :
  Forall2 (fun a b => R (f a) b) l l' -> Forall2 R (map f l) l'.
Proof. induction 1; simpl; auto. Qed.
Lemma Forall2_map_r {A B B'} (R : A -> B' -> Prop) (f : B -> B') l l' :
  Forall2 (fun a b => R a (f b)) l l' -> Forall2 R l (map f l').
Proof. induction 1; simpl; auto. Qed.
Lemma heights_app p l l' : hit_heights p (l ++ l') = hit_heights p l ++ hit_heights p l'.
Proof. apply flat_map_app. Qed.

Lemma det_inv argsort D tr rng done (b b' : batch hrow) :
  is_argsort argsort -> vol_inv done b -> det_forward argsort D tr rng b = Ok b' -> vol_inv (done ++ [LDet D]) b'.
Proof.
  intros Ha (Hs & Hh & Hn & Hf) E. destruct (sound_cases _ Hs) as (cs & Ec & Hd).
  rewrite Ec, map_length in Hh.
  destruct (det_forward_spec argsort D tr rng cs b b' Ha Hd Ec Hh E) as (Em & _ & _ & Hh' & Ho & _ & ps & Pp & Ez & Hv).
  split; [|split; [|split]].
  - rewrite Em. apply Forall_forall. intros u Hu. apply in_map_iff in Hu as (c & <- & Hc). apply sound_at_height; auto.
    rewrite Forall_forall in Hs. apply Hs. rewrite Ec. apply in_map; auto.
  - rewrite Em, map_length; auto.
  - intros p v Hnv. rewrite Ho; auto.
  - intros p v Hin. rewrite heights_app. cbn [hit_heights flat_map]. rewrite app_nil_r.
    destruct (String.eqb_spec (dl_pos D) p) as [<-|Hp].
    + destruct (Hv v Hin) as (ts & -> & F). apply Forall2_app; auto. rewrite <- Ez. apply Forall2_map_r.
      eapply Forall2_imp; [|exact F]. cbn. intros t P (Lt & j & _ & Hq).
      assert (forall row, In row t -> (v = "reco_xyz" \/ v = "gen_xyz" -> nth_error row 2 = Some (Fin (pn_z P))) /\ len row = entries v) as K.
      2:{ split; [intro Hvv|]; apply Forall_forall; intros row Hrow; apply K; auto. }
      intros row Hrow. apply In_nth_error in Hrow as [i Hi].
      assert (i < len cs)%nat as Hlt by (rewrite <- Lt; apply nth_error_Some; intro Hx; assert (Some row = None) by (etransitivity; [symmetry; exact Hi|exact Hx]); discriminate).
      destruct (nth_error cs i) as [c|] eqn:Ec'; [|apply nth_error_None in Ec'; lia].
      destruct (Hq i c Ec') as (q & Q1 & Q2). rewrite Hi in Q2. apply hit1_gen in Q1 as (G1 & G2 & G3 & G4 & G5).
      destruct Hin as [<-|[<-|[<-|[<-|[]]]]]; cbn in Q2; injection Q2 as <-; (split; [intros [Hvv|Hvv]; try discriminate Hvv|]); auto; rewrite G1; auto.
    + rewrite app_nil_r, Ho; auto.
Qed.

Lemma pass_inv L rng fuel done (b b' : batch hrow) :
  passive_ok L -> vol_inv done b -> layer_forward L rng fuel b = Some (Ok b') -> vol_inv (done ++ [LPass L]) b'.
Proof.
  intros (Hsz & Hst & Hpm) (Hs & Hh & Hn & Hf) E.
  destruct (layer_exit L rng fuel b b' Hsz Hst Hpm Hs (hits_ok_aligned _ _ Hh) E) as [Hs' (k & Lk & Mk & Hk)].
  assert (len (b_muons b') = count_true k) as Ln.
  { rewrite <- (map_length mp), Mk. apply select_length. rewrite map_length; auto. }
  split; [|split; [|split]].
  - eapply Forall_impl; [|exact Hs']. intros u [Hu _]; auto.
  - rewrite Ln, Hk. apply hits_ok_select. rewrite Lk; auto.
  - intros p v Hnv. rewrite Hk, recorded_keep, Hn; auto.
  - intros p v Hin. rewrite Hk, recorded_keep, heights_app. cbn. rewrite app_nil_r. apply Forall2_map_l.
    eapply Forall2_imp; [|exact (Hf p v Hin)]. intros t z [Ht Hw]. split; [intro Hvv; specialize (Ht Hvv)|]; apply Forall_forall; intros row Hrow;
    apply in_select in Hrow; rewrite Forall_forall in *; auto.
Qed.

(* only snapshots change the history *)
Lemma filter_hist {H} keep (b b' : batch H) : filter_muons keep b = Ok b' -> b_hist b' = b_hist b.
Proof.
  unfold filter_muons. destruct (Nat.ltb _ _); intro E; [|injection E as <-; auto]. inv_bind E. injection E as <-. reflexivity.
Qed.
Lemma dxyz_hist {H} dx dy dz m (b b' : batch H) : scatter_dxyz dx dy dz m b = Ok b' -> b_hist b' = b_hist b.
Proof. unfold scatter_dxyz. cbv zeta. intro E. inv_bind E. injection E as <-. reflexivity. Qed.
Lemma pd_hist {H} d m (b b' : batch H) : propagate_d d m b = Ok b' -> b_hist b' = b_hist b.
Proof. unfold propagate_d. intro E. inv_bind E. injection E as <-. reflexivity. Qed.
Lemma pdz_hist {H} d m (b b' : batch H) : propagate_dz d m b = Ok b' -> b_hist b' = b_hist b.
Proof. unfold propagate_dz. intro E. inv_bind E. injection E as <-. reflexivity. Qed.
Lemma dxy_hist {H} dx dy m (b b' : batch H) : scatter_dtheta_xy dx dy m b = Ok b' -> b_hist b' = b_hist b.
Proof. unfold scatter_dtheta_xy, remove_upwards_muons. cbv zeta. intro E. inv_bind E. apply filter_hist in E. auto. Qed.
Lemma step_hist {H} L rng mask (b b' : batch H) : scatter_and_propagate L rng mask b = Ok b' -> b_hist b' = b_hist b.
Proof.
  unfold scatter_and_propagate. destruct (pl_rad L) as [rad|]; intro E; cbv zeta in E; inv_bind E.
  - apply dxyz_hist in Hx3. apply pd_hist in Hx4. apply pdz_hist in Hx7. apply dxy_hist in E. congruence.
  - apply pd_hist in E. auto.
Qed.
Lemma loop_hist {H} L rng fuel : forall k mask (b b' : batch H), layer_loop L rng fuel k mask b = Some (Ok b') -> b_hist b' = b_hist b.
Proof.
  induction fuel as [|fuel IH]; intros k mask b b' E; cbn [layer_loop] in E; destruct (existsb _ mask); try discriminate;
    try (injection E as <-; auto).
  destruct (scatter_and_propagate _ _ _ _) as [b1|e] eqn:E1; [|discriminate].
  apply step_hist in E1. apply IH in E. congruence.
Qed.
Lemma layer_hist {H} L rng fuel (b b' : batch H) : layer_forward L rng fuel b = Some (Ok b') -> len (b_hist b') = len (b_hist b).
Proof.
  unfold layer_forward. rewrite propagate_dz_all.
  destruct (layer_loop _ _ _ _ _ _) as [[b2|]|] eqn:E2; try discriminate. rewrite propagate_dz_all. intro E. injection E as <-.
  apply loop_hist in E2. cbn in *. congruence.
Qed.

Lemma snapshot_inv done (b : batch hrow) : vol_inv done b -> vol_inv done (snapshot_xyz b).
Proof. intro I; exact I. Qed.

Lemma cross_inv argsort tr o : is_argsort argsort ->
  forall ls k done (b b' : batch hrow),
  (forall L, In (LPass L) ls -> passive_ok L) -> vol_inv done b ->
  cross_layers argsort tr o ls k b = Some (Ok b') -> vol_inv (done ++ ls) b' /\ len (b_hist b') = (len (b_hist b) + len ls)%nat.
Proof.
  intros Ha. induction ls as [|l ls IH]; intros k done b b' Hp I E; cbn [cross_layers] in E.
  - injection E as <-. rewrite app_nil_r. split; auto.
  - destruct (match l with LPass L => _ | LDet D => _ end) as [[b1|e]|] eqn:E1; try discriminate.
    assert (vol_inv (done ++ [l]) (snapshot_xyz b1) /\ len (b_hist b1) = len (b_hist b)) as [I1 Lh].
    { destruct l as [L|D].
      - split; [apply snapshot_inv; eapply pass_inv; eauto; apply Hp; left; auto|].
        eapply layer_hist; eauto. 
      - injection E1 as E1. split; [apply snapshot_inv; eapply det_inv; eauto|].
        destruct I as (Hs & Hh & _). destruct (sound_cases _ Hs) as (cs & Ec & Hd). rewrite Ec, map_length in Hh.
        destruct (det_forward_spec argsort D tr _ cs b b1 Ha Hd Ec Hh E1) as (_ & _ & -> & _). auto. }
    assert (vol_inv ((done ++ [l]) ++ ls) b' /\ len (b_hist b') = (len (b_hist (snapshot_xyz b1)) + len ls)%nat) as [I2 L2].
    { refine (IH (S k) _ _ _ _ I1 E). intros L HL. apply Hp. right; auto. }
    rewrite <- app_assoc in I2. split; auto. rewrite L2. cbn. rewrite app_length. simpl. lia.
Qed.

(* ---------- budgets do not move panels ---------- *)
Lemma sbs_refl P : same_but_scale P P.
Proof. exists (pn_scale P). destruct P; reflexivity. Qed.
Lemma sbs_trans P Q S : same_but_scale P Q -> same_but_scale Q S -> same_but_scale P S.
Proof. intros [s ->] [s' ->]. exists s'. reflexivity. Qed.

Lemma set_nth_sbs ps i c : Forall2 same_but_scale ps (set_nth ps i (panel_assign_budget c)).
Proof.
  revert i; induction ps as [|P ps IH]; intros [|i]; simpl; constructor; auto using sbs_refl.
  - eexists; reflexivity.
  - clear. induction ps; constructor; auto using sbs_refl.
Qed.
Lemma F2_trans {A} (R : A -> A -> Prop) (T : forall a b c, R a b -> R b c -> R a c) l1 : forall l2 l3,
  Forall2 R l1 l2 -> Forall2 R l2 l3 -> Forall2 R l1 l3.
Proof. induction l1; intros l2 l3 F G; inversion F; subst; inversion G; subst; constructor; eauto. Qed.
Lemma F2_refl {A} (R : A -> A -> Prop) (T : forall a, R a a) l : Forall2 R l l.
Proof. induction l; constructor; auto. Qed.

Lemma give_budgets_sbs order : forall budget ps ps', give_budgets order budget ps = Ok ps' -> Forall2 same_but_scale ps ps'.
Proof.
  induction order as [|j order IH]; intros budget ps ps' E; cbn [give_budgets] in E.
  - injection E as <-. apply F2_refl, sbs_refl.
  - destruct budget as [|c budget]; [discriminate|]. apply IH in E.
    eapply F2_trans; [exact sbs_trans|apply set_nth_sbs|exact E].
Qed.
Lemma sbs_heights ps ps' : Forall2 same_but_scale ps ps' -> map pn_z ps' = map pn_z ps.
Proof. induction 1 as [|P P' ps ps' [s ->] _ IH]; simpl; auto. rewrite IH; auto. Qed.

Lemma give_layers_same argsort ls : forall shares ls', give_layers argsort shares ls = Ok ls' -> Forall2 same_layer ls ls'.
Proof.
  induction ls as [|[L|D] ls IH]; intros shares ls' E; cbn [give_layers] in E.
  - injection E as <-. constructor.
  - apply bind_ok in E as [r [E1 E]]. injection E as <-. constructor; [reflexivity|eauto].
  - cbv zeta in E. apply bind_ok in E as [D' [E1 E]]. apply bind_ok in E as [r [E2 E]]. injection E as <-.
    constructor; [|eauto]. unfold det_assign_budget in E1. apply bind_ok in E1 as [ps [E1 E3]]. injection E3 as <-.
    exists ps. split; auto. eapply give_budgets_sbs; eauto.
Qed.
Lemma assign_same argsort V V' : assign_budget argsort V = Ok V' -> Forall2 same_layer (v_layers V) (v_layers V').
Proof.
  unfold assign_budget. destruct (v_budget V) as [c|]; intro E.
  - apply bind_ok in E as [ls [E1 E]]. injection E as <-. eapply give_layers_same; eauto.
  - injection E as <-. apply F2_refl. intros [L|D]; [reflexivity|]. exists (dl_panels D). split; [destruct D; auto|apply F2_refl, sbs_refl].
Qed.
Lemma same_layer_heights pos ls ls' : Forall2 same_layer ls ls' -> hit_heights pos ls' = hit_heights pos ls.
Proof.
  induction 1 as [|l l' ls ls' Hl _ IH]; auto. unfold hit_heights in *. cbn [flat_map]. rewrite IH. f_equal.
  destruct l as [L|D], l' as [L'|D']; try contradiction; auto.
  destruct Hl as (ps & -> & F). cbn. rewrite (sbs_heights _ _ F). auto.
Qed.
Lemma same_layer_pass ls ls' L : Forall2 same_layer ls ls' -> In (LPass L) ls' -> In (LPass L) ls.
Proof.
  induction 1 as [|l l' ls ls' Hl _ IH]; simpl; auto. intros [->|Hin]; auto.
  destruct l as [L0|D]; [|contradiction]. cbn in Hl. subst. auto.
Qed.

(* ---------- C17 for a volume ---------- *)
Lemma tcols_rows {H} n (ts : list (list H)) : Forall (fun t => len t = n) ts ->
  forall i row, nth_error (tcols H n ts) i = Some row -> Forall2 (fun t h => nth_error t i = Some h) ts row.
Proof.
  induction 1 as [|t ts Ht Hts IH]; intros i row E; cbn [tcols fold_right] in E.
  - assert (row = []) as -> by (apply nth_error_In, repeat_spec in E; auto). constructor.
  - assert (forall (l : list H) (l' : list (list H)) j r, nth_error (map2 cons l l') j = Some r ->
      exists h r', nth_error l j = Some h /\ nth_error l' j = Some r' /\ r = h :: r') as N.
    { clear. induction l as [|a l IH]; intros [|b l'] [|j] r E; simpl in *; try discriminate.
      - injection E as <-. eauto.
      - eauto. }
    apply N in E as (h & r' & E1 & E2 & ->). constructor; auto.
Qed.

Lemma volume_hits argsort tr o V us V' b' :
  is_argsort argsort -> Forall sound us -> (forall L, In (LPass L) (v_layers V) -> passive_ok L) ->
  volume_forward argsort tr o V (Batch us None [] []) = Some (Ok (V', b')) ->
  len (b_hist b') = len (v_layers V)
  /\ forall pos, let zs := hit_heights pos (v_layers V) in
     (zs = [] -> forall v, recorded pos v (b_hits b') = [])
     /\ (zs <> [] -> exists d, get_hits None None b' = Ok d
          /\ forall v, In v hit_variables -> exists rows, assoc2 pos v d = Some rows
             /\ len rows = len (b_muons b')
             /\ forall row, In row rows -> len row = len zs /\ (forall h, In h row -> len h = entries v)
                /\ (v = "reco_xyz" \/ v = "gen_xyz" -> map (fun h => nth_error h 2) row = map (fun z => Some (Fin z)) zs)).
Proof.
  intros Ha Hs Hp E. unfold volume_forward in E.
  destruct (assign_budget argsort V) as [V1|] eqn:E1; [|discriminate]. apply assign_same in E1.
  destruct (cross_layers _ _ _ _ _ _) as [[b1|]|] eqn:E2; try discriminate. injection E as <- <-.
  destruct (cross_inv argsort tr o Ha (v_layers V1) 0 [] (Batch us None [] []) b1) as [(I1 & I2 & I3 & I4) Lh]; auto.
  { intros L HL. apply Hp. eapply same_layer_pass; eauto. }
  { split; [auto|]. split; [constructor|]. split; [auto|]. intros; constructor. }
  split. { rewrite Lh. cbn. symmetry. apply (Forall2_len _ _ _ E1). }
  intros pos zs. pose proof (same_layer_heights pos _ _ E1) as Ez. cbn [app] in I4. split.
  - intros Hz v. destruct (in_dec String.string_dec v hit_variables) as [Hv|Hv]; auto.
    specialize (I4 pos v Hv). rewrite Ez in I4. fold zs in I4. rewrite Hz in I4. inversion I4; auto.
  - intro Hz. assert (get_hits None None b1 = Ok (map_hits (tcols hrow (len (b_muons b1))) (b_hits b1))) as Eg.
    { unfold get_hits. destruct (b_hits b1) as [|e d] eqn:Ed.
      - exfalso. specialize (I4 pos "eff" ltac:(simpl; tauto)). rewrite Ez in I4. fold zs in I4. cbn in I4. inversion I4. congruence.
      - rewrite <- Ed. apply map_dict2_ok. rewrite <- Ed in I2. eapply Forall_impl; [|exact I2]. intros [p vs] Hvs. simpl in *.
        eapply Forall_impl; [|exact Hvs]. intros [v ts] [Hn Hts]. simpl in *. apply stack1_ok; auto. }
    eexists. split; [exact Eg|]. intros v Hv. specialize (I4 pos v Hv). rewrite Ez in I4. fold zs in I4.
    rewrite assoc2_map. unfold recorded in I4. destruct (assoc2 pos v (b_hits b1)) as [ts|] eqn:Ea; [|inversion I4; congruence].
    destruct (hits_ok_assoc2 _ _ _ _ _ _ I2 Ea) as [Hn Hts].
    eexists. split; [reflexivity|]. split; [apply tcols_length; auto|].
    intros row Hrow. apply In_nth_error in Hrow as [i Hi]. pose proof (tcols_rows _ _ Hts _ _ Hi) as F.
    split; [rewrite <- (Forall2_len _ _ _ F), (Forall2_len _ _ _ I4); auto|].
    split.
    { clear - F I4. revert row F. induction I4 as [|t z ts zs [_ Ht] _ IH]; intros row F h Hh; inversion F; subst; [destruct Hh|].
      destruct Hh as [<-|Hh]; [|eapply IH; eauto]. rewrite Forall_forall in Ht. apply Ht. eapply nth_error_In; eauto. }
    intro Hvv. clear - F I4 Hvv. revert row F. induction I4 as [|t z ts zs [Ht _] _ IH]; intros row F; inversion F; subst; simpl; auto.
    f_equal; auto. specialize (Ht Hvv). rewrite Forall_forall in Ht. apply Ht. eapply nth_error_In; eauto.
Qed.
