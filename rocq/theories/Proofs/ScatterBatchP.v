(* Building a scatter batch: C28.  Reading lazily computed variables: C33. *)
From Coq Require Import Psatz.
From Verif Require Import Base.Trig Model.Volume Model.Scatter Spec.ListSpec Spec.MuonSpec Spec.LayerSpec Spec.VolumeSpec Spec.ScatterSpec.
From Verif Require Import Proofs.MuonBatchP Proofs.MuonConserve Proofs.LayerP Proofs.PanelP Proofs.PanelResp Proofs.VolumeP Proofs.ScatterGeo Proofs.ScatterKeep.
Open Scope R_scope.
Open Scope string_scope.
Open Scope list_scope.

Lemma lookup_assoc {V} k (d : list (string * V)) : lookup k d = assoc k d.
Proof. induction d as [|[k' v] d IH]; simpl; auto. Qed.
Lemma hits_of_assoc d p v : hits_of d p v = match assoc2 p v d with Some t => Ok t | None => Err KeyError end.
Proof.
  unfold hits_of, assoc2. rewrite lookup_assoc. destruct (assoc p d); auto.
Qed.

Lemma get_hits_all (b : batch hrow) n : hits_ok hrow n (b_hits b) -> b_hits b <> [] ->
  get_hits None None b = Ok (map_hits (tcols hrow n) (b_hits b)).
Proof.
  intros Hh Hn. unfold get_hits. destruct (b_hits b) as [|e d] eqn:Ed; [congruence|]. rewrite <- Ed in *.
  apply map_dict2_ok. eapply Forall_impl; [|exact Hh]. intros [p vs] Hvs. simpl in *.
  eapply Forall_impl; [|exact Hvs]. intros [v ts] [Hn' Hts]. simpl in *. apply stack1_ok; auto.
Qed.

Lemma mapM_select {A B} (f : A -> res B) k : forall l r, mapM f l = Ok r -> mapM f (select k l) = Ok (select k r).
Proof.
  induction k as [|x k IH]; intros l r E; destruct l as [|a l]; cbn [mapM] in E; try (injection E as <-; destruct x; reflexivity); try reflexivity.
  inv_bind E. injection E as <-. destruct x; simpl; [rewrite Hx; cbn [bind]; rewrite (IH _ _ Hx0); reflexivity|apply IH; auto].
Qed.
Lemma mapM_len {A B} (f : A -> res B) l r : mapM f l = Ok r -> len r = len l.
Proof. intro E. apply mapM_inv2 in E. symmetry. eapply Forall2_len; eauto. Qed.
Lemma combine_map2 {A B} (l : list A) (l' : list B) : combine l l' = map2 pair l l'.
Proof. revert l'. induction l as [|a l IH]; intros [|b l']; simpl; auto. f_equal; auto. Qed.
Lemma cat1_inv {A} (a b c : list (list A)) : cat1 a b = Ok c -> len a = len b /\ c = map2 (@app A) a b.
Proof. unfold cat1. destruct (Nat.eqb_spec (len a) (len b)) as [E|]; [|discriminate]. intro H. injection H as <-. auto. Qed.
Lemma cat1_select {A} k (a b c : list (list A)) : len k = len a -> cat1 a b = Ok c -> cat1 (select k a) (select k b) = Ok (select k c).
Proof.
  intros L E. apply cat1_inv in E as [Lab ->]. unfold cat1. rewrite !select_length by congruence. rewrite Nat.eqb_refl, select_map2. auto.
Qed.
Lemma tcols_row_len {H} n (ts : list (list H)) row : Forall (fun t => len t = n) ts -> In row (tcols H n ts) -> len row = len ts.
Proof.
  intros F Hin. apply In_nth_error in Hin as [i Hi]. pose proof (tcols_rows _ _ F _ _ Hi) as F2. apply Forall2_len in F2. auto.
Qed.

Lemma extract_inv d na hs : extract_hits d = Ok (na, hs) ->
  exists ra rb ga gb ua ub ea eb r g u e,
    hits_of d "above" "reco_xyz" = Ok ra /\ hits_of d "below" "reco_xyz" = Ok rb
    /\ hits_of d "above" "gen_xyz" = Ok ga /\ hits_of d "below" "gen_xyz" = Ok gb
    /\ hits_of d "above" "unc_xyz" = Ok ua /\ hits_of d "below" "unc_xyz" = Ok ub
    /\ hits_of d "above" "eff" = Ok ea /\ hits_of d "below" "eff" = Ok eb
    /\ len ra = len rb /\ len ga = len gb /\ len ua = len ub /\ len ea = len eb
    /\ mapM (mapM row3) (map2 (@app hrow) ra rb) = Ok r /\ mapM (mapM row3) (map2 (@app hrow) ga gb) = Ok g
    /\ mapM (mapM row3) (map2 (@app hrow) ua ub) = Ok u /\ mapM (mapM row1) (map2 (@app hrow) ea eb) = Ok e
    /\ na = match ra with [] => 0%nat | row :: _ => len row end
    /\ hs = map2 (fun rg ue => MH (fst rg) (snd rg) (fst ue) (snd ue)) (combine r g) (combine u e).
Proof.
  unfold extract_hits. intro E. inv_bind E. injection E as <- <-.
  apply cat1_inv in Hx7 as [? ->], Hx8 as [? ->], Hx9 as [? ->], Hx10 as [? ->].
  do 12 eexists. do 17 (split; [eassumption || reflexivity|]). reflexivity.
Qed.

Section Shapes.
Variables (d : list (string * list (string * list (list hrow)))) (n : nat).
Hypothesis rect : forall p v t, assoc2 p v d = Some t -> len t = n /\ exists w, forall row, In row t -> len row = w.

Lemma hits_of_len p v t : hits_of d p v = Ok t -> len t = n.
Proof. rewrite hits_of_assoc. destruct (assoc2 p v d) eqn:E; [|discriminate]. intro X. injection X as <-. apply rect in E. tauto. Qed.

Lemma extract_len na hs : extract_hits d = Ok (na, hs) -> len hs = n.
Proof.
  intro E. apply extract_inv in E as (ra & rb & ga & gb & ua & ub & ea & eb & r & g & u & e & E1 & E2 & E3 & E4 & E5 & E6 & E7 & E8 & L1 & L2 & L3 & L4 & M1 & M2 & M3 & M4 & _ & ->).
  apply mapM_len in M1, M2, M3, M4. rewrite map2_length in M1, M2, M3, M4.
  apply hits_of_len in E1, E2, E3, E4, E5, E6, E7, E8. rewrite map2_length, !combine_length. lia.
Qed.

Lemma extract_select d' k na hs : len k = n ->
  (forall p v, assoc2 p v d' = match assoc2 p v d with Some t => Some (select k t) | None => None end) ->
  extract_hits d = Ok (na, hs) ->
  exists na', extract_hits d' = Ok (na', select k hs) /\ (select k hs <> [] -> na' = na).
Proof.
  intros Lk Hd E.
  assert (HO : forall p v t, hits_of d p v = Ok t -> hits_of d' p v = Ok (select k t) /\ len t = n).
  { intros p v t Et. split; [|eapply hits_of_len; eauto]. rewrite hits_of_assoc in *. rewrite Hd. destruct (assoc2 p v d); [|discriminate]. congruence. }
  pose proof (extract_len _ _ E) as Lh.
  apply extract_inv in E as (ra & rb & ga & gb & ua & ub & ea & eb & r & g & u & e & E1 & E2 & E3 & E4 & E5 & E6 & E7 & E8 & L1 & L2 & L3 & L4 & M1 & M2 & M3 & M4 & -> & ->).
  assert (Wa : exists w, forall row, In row ra -> len row = w).
  { rewrite hits_of_assoc in E1. destruct (assoc2 "above" "reco_xyz" d) eqn:Ea; [|discriminate]. injection E1 as ->. apply rect in Ea. tauto. }
  pose proof (hits_of_len _ _ _ E1) as Lra.
  apply HO in E1 as [E1 ?], E2 as [E2 ?], E3 as [E3 ?], E4 as [E4 ?], E5 as [E5 ?], E6 as [E6 ?], E7 as [E7 ?], E8 as [E8 ?].
  exists (match select k ra with [] => 0%nat | row :: _ => len row end). split.
  - unfold extract_hits. rewrite E1, E2, E3, E4, E5, E6, E7, E8. cbn [bind].
    rewrite (cat1_select k ra rb _ ltac:(congruence) ltac:(unfold cat1; rewrite L1, Nat.eqb_refl; reflexivity)).
    rewrite (cat1_select k ga gb _ ltac:(congruence) ltac:(unfold cat1; rewrite L2, Nat.eqb_refl; reflexivity)).
    rewrite (cat1_select k ua ub _ ltac:(congruence) ltac:(unfold cat1; rewrite L3, Nat.eqb_refl; reflexivity)).
    rewrite (cat1_select k ea eb _ ltac:(congruence) ltac:(unfold cat1; rewrite L4, Nat.eqb_refl; reflexivity)). cbn [bind].
    rewrite (mapM_select _ k _ _ M1), (mapM_select _ k _ _ M2), (mapM_select _ k _ _ M3), (mapM_select _ k _ _ M4). cbn [bind].
    f_equal. f_equal. rewrite select_map2, !combine_map2, !select_map2. reflexivity.
  - intro Hne. destruct Wa as [w Hw].
    destruct (select k ra) as [|row l] eqn:Es.
    + exfalso. apply Hne. assert (count_true k = 0)%nat by (rewrite <- (select_length k ra ltac:(congruence)), Es; auto).
      apply length_zero_iff_nil. rewrite select_length; congruence.
    + assert (In row ra) by (apply (in_select k); rewrite Es; left; auto).
      destruct ra as [|row' ra']; [contradiction|]. rewrite (Hw row), (Hw row'); auto. left; auto.
Qed.
End Shapes.

Lemma assoc2_tcols_rect (dd : hits_dict hrow) n : hits_ok hrow n dd ->
  forall p v t, assoc2 p v (map_hits (tcols hrow n) dd) = Some t -> len t = n /\ exists w, forall row, In row t -> len row = w.
Proof.
  intros Hh p v t E. rewrite assoc2_map in E. destruct (assoc2 p v dd) as [ts|] eqn:Ea; [|discriminate]. injection E as <-.
  destruct (hits_ok_assoc2 _ _ _ _ _ _ Hh Ea) as [Hn Ht]. split; [apply tcols_length; auto|]. exists (len ts). intros row Hr. eapply tcols_row_len; eauto.
Qed.

Lemma keep_hits_nonempty {H} k (d : hits_dict H) : d <> [] -> keep_hits k d <> [].
Proof. destruct d; [congruence|discriminate]. Qed.

Lemma assoc2_keep_tcols (dd : hits_dict hrow) n k : hits_ok hrow n dd -> len k = n -> forall p v,
  assoc2 p v (map_hits (tcols hrow (count_true k)) (keep_hits k dd))
  = match assoc2 p v (map_hits (tcols hrow n) dd) with Some t => Some (select k t) | None => None end.
Proof.
  intros Hh Lk p v. rewrite !assoc2_map. change (keep_hits k dd) with (map_hits (map (select k)) dd). rewrite assoc2_map.
  destruct (assoc2 p v dd) as [ts|] eqn:Ea; auto. f_equal.
  destruct (hits_ok_assoc2 _ _ _ _ _ _ Hh Ea) as [Hn Ht]. rewrite <- Lk. apply tcols_select.
Qed.

Lemma read_tracks_inv gen lw (b : batch hrow) n na hs ts : hits_ok hrow n (b_hits b) -> read_tracks gen lw b = Ok (na, hs, ts) ->
  b_hits b <> [] /\ extract_hits (map_hits (tcols hrow n) (b_hits b)) = Ok (na, hs) /\ mapM (tracks1 gen lw na) hs = Ok ts /\ len hs = n /\ len ts = n.
Proof.
  intros Hh E. assert (Hne : b_hits b <> []). { intro X. unfold read_tracks, get_hits in E. rewrite X in E. discriminate. }
  unfold read_tracks in E. rewrite (get_hits_all b n Hh Hne) in E. cbn [bind] in E. inv_bind E. destruct x as [na' hs']. cbn [fst snd] in *. injection E as <- <- <-.
  pose proof (extract_len _ _ (assoc2_tcols_rect _ _ Hh) _ _ Hx) as L. pose proof (mapM_len _ _ _ Hx0). repeat split; auto. congruence.
Qed.

Lemma select_self (k : list bool) : select k k = all_true (count_true k).
Proof. induction k as [|[] k IH]; simpl; auto. unfold all_true in *. simpl. f_equal. auto. Qed.
Lemma all_true_forallb m : forallb (fun k => k) m = true -> m = all_true (len m).
Proof. induction m as [|x m IH]; simpl; auto. intro E. apply andb_prop in E as [-> E]. unfold all_true in *. simpl. f_equal; auto. Qed.
Lemma forallb_all_true n : forallb (fun k : bool => k) (all_true n) = true.
Proof. unfold all_true. induction n; simpl; auto. Qed.

(* reading the tracks again after some muons were removed gives the same tracks *)
Lemma reread gen lw (b : batch hrow) na hs ts k : hits_ok hrow (len (b_muons b)) (b_hits b) -> len k = len (b_muons b) ->
  read_tracks gen lw b = Ok (na, hs, ts) ->
  exists b1 na', filter_muons k b = Ok b1 /\ b_muons b1 = select k (b_muons b) /\ b_hits b1 = keep_hits k (b_hits b) /\ b_hist b1 = b_hist b
    /\ removed_of b1 = removed_of b ++ select (negm k) (b_muons b) /\ hits_ok hrow (len (b_muons b1)) (b_hits b1)
    /\ read_tracks gen lw b1 = Ok (na', select k hs, select k ts).
Proof.
  intros Hh Lk E1. destruct (read_tracks_inv _ _ _ _ _ _ _ Hh E1) as (Hne & Ex & Et & Lh & Lt).
  destruct (filter_full k b Lk (hits_ok_aligned _ _ Hh)) as (b1 & F & Fm & Fh & Fhi & Fr).
  assert (Hh1 : hits_ok hrow (len (b_muons b1)) (b_hits b1)).
  { rewrite Fm, Fh, select_length by auto. change (keep_hits k (b_hits b)) with (map_hits (map (select k)) (b_hits b)). apply hits_ok_select. rewrite Lk. auto. }
  assert (Hne1 : b_hits b1 <> []) by (rewrite Fh; apply keep_hits_nonempty; auto).
  destruct (extract_select _ _ (assoc2_tcols_rect _ _ Hh) (map_hits (tcols hrow (len (b_muons b1))) (b_hits b1)) k na hs Lk) as (na' & Ea & Hna); auto.
  { intros p v. rewrite Fm, Fh, select_length by auto. apply assoc2_keep_tcols; auto. }
  exists b1, na'. do 6 (split; [auto|]). unfold read_tracks. rewrite (get_hits_all b1 _ Hh1 Hne1). cbn [bind]. rewrite Ea. cbn [bind fst snd].
  assert (mapM (tracks1 gen lw na') (select k hs) = Ok (select k ts)) as ->; [|reflexivity].
  destruct (select k hs) as [|h l] eqn:Es.
  - assert (select k ts = []) as ->; [|reflexivity]. apply length_zero_iff_nil. rewrite select_length by congruence. rewrite <- (select_length k hs) by congruence. rewrite Es. auto.
  - rewrite Hna by discriminate. rewrite <- Es. apply mapM_select. auto.
Qed.

(* what happens when a scatter batch is built *)
Lemma scatter_batch_inv gen lw zr (b b' : batch hrow) sb : hits_ok hrow (len (b_muons b)) (b_hits b) ->
  scatter_batch gen lw zr b = Ok (b', sb) ->
  exists na hs ts, let k := map2 (keep1 gen lw zr) hs ts in
    read_tracks gen lw b = Ok (na, hs, ts) /\ len hs = len (b_muons b) /\ len ts = len (b_muons b)
    /\ b_muons b' = select k (b_muons b) /\ b_hits b' = keep_hits k (b_hits b)
    /\ removed_of b' = removed_of b ++ select (negm k) (b_muons b) /\ b_hist b' = b_hist b
    /\ hits_ok hrow (len (b_muons b')) (b_hits b')
    /\ sb_hits sb = select k hs /\ sb_tracks sb = select k ts
    /\ read_tracks gen lw b' = Ok (sb_above sb, sb_hits sb, sb_tracks sb)
    /\ mapM coefs1 (sb_tracks sb) = Ok (sb_coefs sb).
Proof.
  intros Hh E. unfold scatter_batch in E.
  destruct (read_tracks gen lw b) as [[[na hs] ts]|] eqn:E1; [|discriminate]. cbn [bind] in E.
  destruct (read_tracks_inv _ _ _ _ _ _ _ Hh E1) as (Hne & Ex & Et & Lh & Lt).
  exists na, hs, ts. cbv zeta. set (k := map2 (keep1 gen lw zr) hs ts) in *.
  assert (Lk : len k = len (b_muons b)) by (unfold k; rewrite map2_length; lia).
  destruct (forallb (fun k => k) k) eqn:Ek.
  - cbn [bind] in E. destruct (mapM coefs1 ts) as [cs|] eqn:Ec; [|discriminate]. injection E as <- <-. cbn [sb_hits sb_tracks sb_above sb_coefs].
    apply all_true_forallb in Ek. rewrite Lk in Ek.
    assert (SA : forall A (l : list A), len l = len (b_muons b) -> select k l = l) by (intros A l Hl; rewrite Ek, <- Hl; apply select_all).
    assert (Nm : select (negm k) (b_muons b) = []) by (rewrite Ek; clear; induction (b_muons b); simpl; auto).
    assert (Kh : keep_hits k (b_hits b) = b_hits b) by (rewrite Ek; apply keep_hits_all, hits_ok_aligned; auto).
    rewrite Nm, app_nil_r, Kh, !SA by auto.
    repeat split; auto.
  - assert (E' : (b1 <- filter_muons k b ;; again <- read_tracks gen lw b1 ;; let '(n', hs', ts') := again in cs <- mapM coefs1 ts' ;; Ok (b1, SB hs' n' ts' cs)) = Ok (b', sb)).
    { destruct k as [|k1 [|k2 k']]; try discriminate; cbn [bind] in E;
      destruct (filter_muons _ b) as [b1|] eqn:E2; cbn [bind] in E |- *; try discriminate;
      destruct (read_tracks gen lw b1) as [[[n' hs'] ts']|] eqn:E3; cbn [bind] in E |- *; try discriminate; exact E. }
    clear E. rename E' into E.
    destruct (reread gen lw b na hs ts k Hh Lk E1) as (b1 & na' & F & Fm & Fh & Fhi & Fr & Hh1 & E3). rewrite F in E. cbn [bind] in E.
    rewrite E3 in E. cbn [bind] in E. destruct (mapM coefs1 (select k ts)) as [cs|] eqn:Ec; [|discriminate]. injection E as <- <-.
    cbn [sb_hits sb_tracks sb_above sb_coefs]. repeat split; auto.
Qed.

Lemma row3_l3 h v : row3 h = Ok v -> l3 v = h.
Proof. destruct h as [|x [|y [|z [|w h]]]]; cbn; try discriminate. intro E. injection E as <-. reflexivity. Qed.
Lemma row1_l1 h e : row1 h = Ok e -> [e] = h.
Proof. destruct h as [|x [|w h]]; cbn; try discriminate. intro E. injection E as <-. reflexivity. Qed.
Lemma mapM_back {A B} (f : A -> res B) (g : B -> A) l r : (forall a b, f a = Ok b -> g b = a) -> mapM f l = Ok r -> map g r = l.
Proof. intros H E. apply mapM_inv2 in E. induction E; simpl; auto. f_equal; auto. Qed.
Lemma map2_nth_inv {A B C} (f : A -> B -> C) l l' i c : nth_error (map2 f l l') i = Some c ->
  exists a b, nth_error l i = Some a /\ nth_error l' i = Some b /\ c = f a b.
Proof. revert l l'. induction i as [|i IH]; intros [|a l] [|b l'] E; simpl in *; try discriminate; eauto. injection E as <-. eauto. Qed.

Lemma map2_nth_err {A B C} (f : A -> B -> C) i : forall l l' a b, nth_error l i = Some a -> nth_error l' i = Some b ->
  nth_error (map2 f l l') i = Some (f a b).
Proof. induction i as [|i IH]; intros [|x l] [|y l'] a b E1 E2; simpl in *; try discriminate; auto. congruence. Qed.

Lemma extract_rows d na hs i m : extract_hits d = Ok (na, hs) -> nth_error hs i = Some m -> hits_of_muon d i m.
Proof.
  intros E Hm. apply extract_inv in E as (ra & rb & ga & gb & ua & ub & ea & eb & r & g & u & e & E1 & E2 & E3 & E4 & E5 & E6 & E7 & E8 & L1 & L2 & L3 & L4 & M1 & M2 & M3 & M4 & -> & ->).
  apply map2_nth_inv in Hm as ([r1 g1] & [u1 e1] & H1 & H2 & ->). rewrite ?combine_map2 in H1. rewrite ?combine_map2 in H2.
  apply map2_nth_inv in H1 as (? & ? & Hr & Hg & X). injection X as <- <-. apply map2_nth_inv in H2 as (? & ? & Hu & He & X). injection X as <- <-.
  rewrite hits_of_assoc in *. unfold hits_of_muon, row_of. cbn [fst snd mh_reco mh_gen mh_unc mh_eff].
  repeat match goal with H : match assoc2 ?p ?v d with _ => _ end = Ok _ |- _ =>
    destruct (assoc2 p v d); [|discriminate H]; injection H as -> end.
  assert (K : forall (a b : list (list hrow)) (B : Type) (f : hrow -> res B) (back : B -> hrow) rr w, (forall h v, f h = Ok v -> back v = h) ->
    mapM (mapM f) (map2 (@app hrow) a b) = Ok rr -> nth_error rr i = Some w -> map back w = nth i a [] ++ nth i b []).
  { intros a b B f back rr w Hb HM Hw. apply (mapM_back _ (map back)) in HM; [|intros x y; apply mapM_back; auto].
    assert (Hn : nth_error (map2 (@app hrow) a b) i = Some (map back w)) by (rewrite <- HM; apply map_nth_error; auto).
    apply map2_nth_inv in Hn as (x & y & Hx & Hy & ->). rewrite (nth_error_nth _ _ _ Hx), (nth_error_nth _ _ _ Hy). auto. }
  split; [|split; [|split]]; eapply K; eauto using row3_l3, row1_l1.
Qed.
Lemma extract_above d n na hs i m : (forall p v t, assoc2 p v d = Some t -> len t = n /\ exists w, forall row, In row t -> len row = w) ->
  extract_hits d = Ok (na, hs) -> nth_error hs i = Some m -> na = len (row_of d "above" "reco_xyz" i).
Proof.
  intros rect E Hm. pose proof (extract_len d n rect _ _ E) as Lh. apply extract_inv in E as (ra & ? & ? & ? & ? & ? & ? & ? & ? & ? & ? & ? & E1 & _ & _ & _ & _ & _ & _ & _ & _ & _ & _ & _ & _ & _ & _ & _ & -> & _).
  rewrite hits_of_assoc in E1. unfold row_of. destruct (assoc2 "above" "reco_xyz" d) as [t|] eqn:Ea; [|discriminate]. injection E1 as ->.
  apply rect in Ea as [Lr [w Hw]].
  assert (Hi : (i < len ra)%nat) by (rewrite Lr, <- Lh; apply nth_error_Some; congruence).
  rewrite (Hw (nth i ra [])) by (apply nth_In; auto). destruct ra as [|r0 ra']; [simpl in Hi; lia|]. apply Hw. left; auto.
Qed.

Lemma usable_coefs lw zr us t : usable lw zr us t -> exists c, coefs1 t = Ok (fv c).
Proof. intros (v1 & p1 & v2 & p2 & -> & _ & _ & NP & _). apply cross_nonzero in NP. destruct (coefs_fin v1 p1 v2 p2 NP) as (c0 & c1 & c2 & E & _). eauto. Qed.

Lemma select_true_nth {A} k : forall (l : list A) i a, len k = len l -> nth_error (select k l) i = Some a ->
  exists j, nth_error k j = Some true /\ nth_error l j = Some a.
Proof.
  induction k as [|x k IH]; intros [|b l] i a L E; simpl in *; try (destruct i; discriminate); try discriminate.
  destruct x; simpl in E.
  - destruct i as [|i]; simpl in E; [injection E as <-; exists 0%nat; auto|]. destruct (IH l i a) as (j & J); auto. exists (S j). auto.
  - destruct (IH l i a) as (j & J); auto. exists (S j). auto.
Qed.

Lemma keep_select gen lw zr hs ts i m t : let k := map2 (keep1 gen lw zr) hs ts in
  len hs = len ts -> nth_error (select k hs) i = Some m -> nth_error (select k ts) i = Some t -> usable lw zr (used_uncs gen m) t.
Proof.
  intros k L Hm Ht. apply keep_usable.
  assert (Hk : nth_error (select k k) i = Some (keep1 gen lw zr m t)).
  { unfold k at 2. rewrite select_map2. revert Hm Ht. generalize (select k hs) (select k ts). induction i as [|i IH]; intros [|a l] [|b l'] H1 H2; simpl in *; try discriminate; eauto. congruence. }
  rewrite select_self in Hk. apply nth_error_In, repeat_spec in Hk. auto.
Qed.

Lemma kept_muons gen lw zr (b b' : batch hrow) sb : hits_ok hrow (len (b_muons b)) (b_hits b) ->
  scatter_batch gen lw zr b = Ok (b', sb) ->
  exists na hs ts keep d,
    read_tracks gen lw b = Ok (na, hs, ts) /\ len hs = len (b_muons b) /\ len ts = len (b_muons b) /\ len keep = len (b_muons b)
    /\ (forall i m t, nth_error hs i = Some m -> nth_error ts i = Some t -> (nth_error keep i = Some true <-> usable lw zr (used_uncs gen m) t))
    /\ b_muons b' = select keep (b_muons b) /\ b_hits b' = keep_hits keep (b_hits b) /\ b_hist b' = b_hist b
    /\ removed_of b' = removed_of b ++ select (negm keep) (b_muons b)
    /\ get_hits None None b' = Ok d
    /\ len (sb_hits sb) = len (b_muons b') /\ len (sb_tracks sb) = len (b_muons b') /\ len (sb_coefs sb) = len (b_muons b')
    /\ forall i m t c, nth_error (sb_hits sb) i = Some m -> nth_error (sb_tracks sb) i = Some t -> nth_error (sb_coefs sb) i = Some c ->
         hits_of_muon d i m /\ sb_above sb = len (row_of d "above" "reco_xyz" i)
         /\ tracks1 gen lw (sb_above sb) m = Ok t /\ usable lw zr (used_uncs gen m) t
         /\ coefs1 t = Ok c /\ exists c', c = fv c'.
Proof.
  intros Hh E. destruct (scatter_batch_inv _ _ _ _ _ _ Hh E) as (na & hs & ts & E1 & Lh & Lt & Em & Ehi & Er & Eh & Hh' & Sh & St & E3 & Ec). cbv zeta in *.
  set (k := map2 (keep1 gen lw zr) hs ts) in *.
  assert (Lk : len k = len (b_muons b)) by (unfold k; rewrite map2_length; lia).
  destruct (read_tracks_inv _ _ _ _ _ _ _ Hh' E3) as (Hne & Ex & Et & Lh' & Lt').
  exists na, hs, ts, k. eexists. split; [auto|]. do 3 (split; [auto|]). split.
  { intros i m t Hm Ht. rewrite <- keep_usable. unfold k. rewrite (map2_nth_err _ _ _ _ _ _ Hm Ht). split; congruence. }
  do 4 (split; [auto|]). split; [apply get_hits_all; eauto|]. split; [auto|]. split; [auto|]. split; [rewrite <- Lt'; apply (mapM_len _ _ _ Ec)|].
  intros i m t c Hm Ht Hc. split; [eapply extract_rows; eauto|]. split.
  { eapply extract_above; eauto. apply assoc2_tcols_rect; auto. }
  split. { apply mapM_inv2 in Et. destruct (Forall2_nth _ _ _ Et _ _ Hm) as (t' & Ht' & Hx). congruence. }
  assert (U : usable lw zr (used_uncs gen m) t). { rewrite Sh in Hm. rewrite St in Ht. eapply keep_select; eauto. congruence. }
  split; [auto|]. apply mapM_inv2 in Ec. destruct (Forall2_nth _ _ _ Ec _ _ Ht) as (c0 & Hc0 & Hx0). assert (c0 = c) as -> by congruence.
  split; [auto|]. destruct (usable_coefs _ _ _ _ U) as [c' Hc']. exists c'. congruence.
Qed.

(* ---------- no exceptions ---------- *)
Definition shaped (pos : string) (w : nat) (b : batch hrow) : Prop :=
  forall v, In v hit_variables -> len (recorded pos v (b_hits b)) = w
    /\ forall t row, In t (recorded pos v (b_hits b)) -> In row t -> len row = entries v.

Lemma shaped_rows pos w (b : batch hrow) n v : hits_ok hrow n (b_hits b) -> shaped pos w b -> (0 < w)%nat -> In v hit_variables ->
  exists t, hits_of (map_hits (tcols hrow n) (b_hits b)) pos v = Ok t /\ len t = n
    /\ forall row, In row t -> len row = w /\ forall h, In h row -> len h = entries v.
Proof.
  intros Hh Hs Hw Hv. destruct (Hs v Hv) as [Lw We]. unfold recorded in *. rewrite hits_of_assoc, assoc2_map.
  destruct (assoc2 pos v (b_hits b)) as [ts|] eqn:Ea; [|cbn in Lw; lia].
  destruct (hits_ok_assoc2 _ _ _ _ _ _ Hh Ea) as [Hn Hts]. eexists. split; [reflexivity|]. split; [apply tcols_length; auto|].
  intros row Hrow. apply In_nth_error in Hrow as [i Hi]. pose proof (tcols_rows _ _ Hts _ _ Hi) as F. split; [rewrite <- (Forall2_len _ _ _ F); auto|].
  intros h Hin. apply In_nth_error in Hin as [j Hj].
  assert (exists t, nth_error ts j = Some t /\ nth_error t i = Some h) as (t & T1 & T2).
  { clear - F Hj. revert j Hj. induction F; intros [|j] Hj; simpl in *; try discriminate; eauto. injection Hj as <-. eauto. }
  apply (We t); eapply nth_error_In; eauto.
Qed.

Lemma rows_total {B} (f : hrow -> res B) e (a b : list (list hrow)) wa wb : (forall h, len h = e -> exists x, f h = Ok x) ->
  (forall row, In row a -> len row = wa /\ forall h, In h row -> len h = e) -> (forall row, In row b -> len row = wb /\ forall h, In h row -> len h = e) ->
  exists r, mapM (mapM f) (map2 (@app hrow) a b) = Ok r /\ forall row, In row r -> len row = (wa + wb)%nat.
Proof.
  intros Hf Ha Hb.
  assert (I : forall row, In row (map2 (@app hrow) a b) -> len row = (wa + wb)%nat /\ forall h, In h row -> len h = e).
  { intros row Hr. apply In_nth_error in Hr as [i Hi]. apply map2_nth_inv in Hi as (x & y & Hx & Hy & ->). apply nth_error_In in Hx, Hy.
    apply Ha in Hx as [L1 W1]. apply Hb in Hy as [L2 W2]. rewrite app_length. split; [lia|]. intros h Hh. apply in_app_or in Hh as [|]; auto. }
  destruct (mapM_total (mapM f) (map2 (@app hrow) a b)) as [r Er].
  { intros row Hr. apply mapM_total. intros h Hh. apply Hf. eapply I; eauto. }
  exists r. split; [auto|]. intros row Hr. apply mapM_inv2 in Er.
  apply In_nth_error in Hr as [i Hi].
  assert (exists row0, In row0 (map2 (@app hrow) a b) /\ mapM f row0 = Ok row) as (row0 & H0 & H1).
  { clear - Er Hi. revert i Hi. induction Er; intros [|i] Hi; simpl in *; try discriminate; [injection Hi as <-; eauto|]. destruct (IHEr _ Hi) as (? & ? & ?); eauto. }
  rewrite (mapM_len _ _ _ H1). apply I in H0. tauto.
Qed.

Lemma trajectory_total lw hs us : len hs = len us -> (2 <= len hs)%nat -> exists t, trajectory lw hs us = Ok t.
Proof.
  intros L G. unfold trajectory. rewrite L, Nat.eqb_refl. cbn [negb].
  destruct hs as [|h0 [|h1 hs]]; simpl in G; try lia. cbn [map]. destruct (fit_axis _). destruct (fit_axis _). eauto.
Qed.

Lemma read_tracks_total gen lw (b : batch hrow) na nb : hits_ok hrow (len (b_muons b)) (b_hits b) ->
  shaped "above" na b -> shaped "below" nb b -> (2 <= na)%nat -> (2 <= nb)%nat -> exists r, read_tracks gen lw b = Ok r.
Proof.
  intros Hh Sa Sb Ga Gb. assert (Hne : b_hits b <> []).
  { intro X. destruct (Sa "eff") as [L _]; [simpl; tauto|]. rewrite X in L. cbn in L. lia. }
  unfold read_tracks. rewrite (get_hits_all b _ Hh Hne). cbn [bind].
  set (n := len (b_muons b)) in *. set (d := map_hits (tcols hrow n) (b_hits b)) in *.
  assert (HA : forall v, In v hit_variables -> exists t, hits_of d "above" v = Ok t /\ len t = n /\ forall row, In row t -> len row = na /\ forall h, In h row -> len h = entries v)
    by (intros; eapply shaped_rows; eauto; lia).
  assert (HB : forall v, In v hit_variables -> exists t, hits_of d "below" v = Ok t /\ len t = n /\ forall row, In row t -> len row = nb /\ forall h, In h row -> len h = entries v)
    by (intros; eapply shaped_rows; eauto; lia).
  destruct (HA "reco_xyz" ltac:(simpl; tauto)) as (ra & E1 & L1 & W1). destruct (HB "reco_xyz" ltac:(simpl; tauto)) as (rb & E2 & L2 & W2).
  destruct (HA "gen_xyz" ltac:(simpl; tauto)) as (ga & E3 & L3 & W3). destruct (HB "gen_xyz" ltac:(simpl; tauto)) as (gb & E4 & L4 & W4).
  destruct (HA "unc_xyz" ltac:(simpl; tauto)) as (ua & E5 & L5 & W5). destruct (HB "unc_xyz" ltac:(simpl; tauto)) as (ub & E6 & L6 & W6).
  destruct (HA "eff" ltac:(simpl; tauto)) as (ea & E7 & L7 & W7). destruct (HB "eff" ltac:(simpl; tauto)) as (eb & E8 & L8 & W8).
  assert (R3 : forall h, len h = 3%nat -> exists x, row3 h = Ok x) by (intros [|? [|? [|? [|? ?]]]] X; simpl in X; try lia; cbn; eauto).
  assert (R1 : forall h, len h = 1%nat -> exists x, row1 h = Ok x) by (intros [|? [|? ?]] X; simpl in X; try lia; cbn; eauto).
  destruct (rows_total row3 3 ra rb na nb R3 W1 W2) as (r & Er & Wr). destruct (rows_total row3 3 ga gb na nb R3 W3 W4) as (g & Eg & Wg).
  destruct (rows_total row3 3 ua ub na nb R3 W5 W6) as (u & Eu & Wu). destruct (rows_total row1 1 ea eb na nb R1 W7 W8) as (e & Ee & We).
  unfold extract_hits. rewrite E1, E2, E3, E4, E5, E6, E7, E8. cbn [bind]. unfold cat1. rewrite L1, L2, L3, L4, L5, L6, L7, L8, Nat.eqb_refl. cbn [bind].
  rewrite Er, Eg, Eu, Ee. cbn [bind fst snd].
  match goal with |- context [mapM ?f ?l] => destruct (mapM_total f l) as [ts ->] end; [|cbn [bind]; eauto].
  intros m Hm.
  assert (Hna : match ra with [] => 0%nat | row :: _ => len row end = na).
  { destruct ra as [|row ra]; [|apply W1; left; auto]. exfalso. simpl in L1. assert (n = 0%nat) by auto. apply mapM_len in Er. simpl in Er.
    apply length_zero_iff_nil in Er. rewrite Er in Hm. simpl in Hm. auto. }
  rewrite Hna. apply In_nth_error in Hm as [i Hi]. apply map2_nth_inv in Hi as ([r1 g1] & [u1 e1] & H1 & H2 & ->).
  apply nth_error_In in H1, H2. pose proof (Wr _ (in_combine_l _ _ _ _ H1)). pose proof (Wg _ (in_combine_r _ _ _ _ H1)).
  pose proof (Wu _ (in_combine_l _ _ _ _ H2)). pose proof (We _ (in_combine_r _ _ _ _ H2)). unfold tracks1, used_uncs. cbn [fst snd mh_reco mh_gen mh_unc mh_eff].
  assert (K : forall hs us, len hs = (na + nb)%nat -> len us = (na + nb)%nat ->
    exists t, (t_in <- trajectory lw (firstn na hs) (firstn na us) ;; t_out <- trajectory lw (skipn na hs) (skipn na us) ;; Ok (t_in, t_out)) = Ok t).
  { intros hs us LA LB. destruct (trajectory_total lw (firstn na hs) (firstn na us)) as [t1 ->]; try (rewrite ?firstn_length; lia).
    destruct (trajectory_total lw (skipn na hs) (skipn na us)) as [t2 ->]; try (rewrite ?skipn_length; lia). cbn. eauto. }
  destruct gen; apply K; rewrite ?map_length, ?map2_length; lia.
Qed.

Lemma scatter_total gen lw zr (b : batch hrow) na nb : hits_ok hrow (len (b_muons b)) (b_hits b) ->
  shaped "above" na b -> shaped "below" nb b -> (2 <= na)%nat -> (2 <= nb)%nat -> len (b_muons b) <> 1%nat ->
  exists r, scatter_batch gen lw zr b = Ok r.
Proof.
  intros Hh Sa Sb Ga Gb Hn. destruct (read_tracks_total gen lw b na nb Hh Sa Sb Ga Gb) as [[[na' hs] ts] E1].
  destruct (read_tracks_inv _ _ _ _ _ _ _ Hh E1) as (_ & _ & _ & Lh & Lt).
  set (k := map2 (keep1 gen lw zr) hs ts). assert (Lk : len k = len (b_muons b)) by (unfold k; rewrite map2_length; lia).
  assert (C : forall l, (forall t, In t l -> exists m, keep1 gen lw zr m t = true) -> exists cs, mapM coefs1 l = Ok cs).
  { intros l Hl. apply mapM_total. intros t Ht. apply Hl in Ht as [m Hm]. apply keep_usable, usable_coefs in Hm as [c Hc]. eauto. }
  unfold scatter_batch. rewrite E1. cbn [bind]. fold k. destruct (forallb (fun k => k) k) eqn:Ek.
  - cbn [bind]. destruct (C ts) as [cs ->]; [|cbn; eauto]. intros t Ht. apply In_nth_error in Ht as [i Hi].
    destruct (nth_error hs i) as [m|] eqn:Em; [|exfalso; apply nth_error_None in Em; assert (i < len ts)%nat by (apply nth_error_Some; congruence); lia].
    exists m. rewrite forallb_forall in Ek. apply Ek. eapply nth_error_In. apply map2_nth_err; eauto.
  - destruct (reread gen lw b na' hs ts k Hh Lk E1) as (b1 & na1 & F & Fm & Fh & Fhi & Fr & Hh1 & E3).
    assert (exists b2, (match k with [_] => Err RankChanged | _ => b0 <- filter_muons k b ;; again <- read_tracks gen lw b0 ;; Ok (b0, again) end) = Ok (b2, (na1, select k hs, select k ts))) as [b2 ->].
    { exists b1. destruct k as [|x [|y k']]; try (simpl in Lk; lia); rewrite F; cbn [bind]; rewrite E3; reflexivity. }
    cbn [bind]. destruct (C (select k ts)) as [cs ->]; [|cbn; eauto]. intros t Ht. apply In_nth_error in Ht as [i Hi].
    destruct (nth_error (select k hs) i) as [m|] eqn:Em.
    2:{ exfalso. apply nth_error_None in Em. assert (i < len (select k ts))%nat by (apply nth_error_Some; congruence).
      assert (len (select k ts) = len (select k hs)) by (rewrite !select_length by congruence; auto). lia. }
    exists m. apply keep_usable. eapply keep_select; eauto. congruence.
Qed.

Lemma volume_shaped argsort tr o V us V' b :
  is_argsort argsort -> Forall sound us -> (forall L, In (LPass L) (v_layers V) -> passive_ok L) ->
  volume_forward argsort tr o V (Batch us None [] []) = Some (Ok (V', b)) ->
  hits_ok hrow (len (b_muons b)) (b_hits b) /\ forall pos, shaped pos (len (hit_heights pos (v_layers V))) b.
Proof.
  intros Ha Hs Hp E. unfold volume_forward in E.
  destruct (assign_budget argsort V) as [V1|] eqn:E1; [|discriminate]. apply assign_same in E1.
  destruct (cross_layers _ _ _ _ _ _) as [[b1|]|] eqn:E2; try discriminate. injection E as <- <-.
  destruct (cross_inv argsort tr o Ha (v_layers V1) 0 [] (Batch us None [] []) b1) as [(I1 & I2 & I3 & I4) Lh]; auto.
  { intros L HL. apply Hp. eapply same_layer_pass; eauto. }
  { split; [auto|]. split; [constructor|]. split; [auto|]. intros; constructor. }
  split; [auto|]. intros pos v Hv. specialize (I4 pos v Hv). cbn [app] in I4. rewrite (same_layer_heights pos _ _ E1) in I4.
  split; [eapply Forall2_len; eauto|]. clear - I4. intros t row Ht Hr. induction I4 as [|t0 z ts zs [_ H] _ IH]; [destruct Ht|].
  destruct Ht as [-> |Ht]; auto. rewrite Forall_forall in H. auto.
Qed.

Lemma scatter_after_volume gen lw zr argsort tr o V us V' b :
  is_argsort argsort -> Forall sound us -> (forall L, In (LPass L) (v_layers V) -> passive_ok L) ->
  volume_forward argsort tr o V (Batch us None [] []) = Some (Ok (V', b)) ->
  (2 <= len (hit_heights "above" (v_layers V)))%nat -> (2 <= len (hit_heights "below" (v_layers V)))%nat -> len (b_muons b) <> 1%nat ->
  exists b' sb, scatter_batch gen lw zr b = Ok (b', sb).
Proof.
  intros Ha Hs Hp E Ga Gb Hn. destruct (volume_shaped _ _ _ _ _ _ _ Ha Hs Hp E) as [Hh Sh].
  destruct (scatter_total gen lw zr b _ _ Hh (Sh _) (Sh _) Ga Gb Hn) as [[b' sb] X]. eauto.
Qed.

(* ---------- lazily computed variables ---------- *)
Section LazyP.
Variables (zr : R * R) (sb : scatters) (unc_of : svar -> tensor2 -> tensor2).
Notation get v := (get_var zr sb v).
Definition fresh (v : svar) : tensor2 := fst (get v empty_memo).
Definition memo_ok (m : memo) : Prop :=
  (forall v x, m_val m v = Some x -> x = fresh v) /\ (forall v u, m_unc m v = Some u -> u = unc_of v (fresh v)).

Lemma empty_ok : memo_ok empty_memo.
Proof. split; discriminate. Qed.
Lemma svar_eqb_eq a b : svar_eqb a b = true -> a = b.
Proof. destruct a, b; cbn; congruence. Qed.
Lemma store_inv {A} (f : svar -> option A) v a w x : store f v a w = Some x -> (w = v /\ a = Some x) \/ f w = Some x.
Proof. unfold store. destruct (svar_eqb v w) eqn:E; [apply svar_eqb_eq in E; auto|auto]. Qed.
Lemma set_ok v m : memo_ok m -> memo_ok (set_var v (fresh v) m).
Proof.
  intros [H1 H2]. split; intros w x E; cbn [set_var m_val m_unc] in E; apply store_inv in E as [[-> E]|E]; auto; [congruence|discriminate].
Qed.

Lemma cached_ok v compute m : memo_ok m ->
  (m_val m v = None -> memo_ok (snd (compute m)) /\ fst (compute m) = fresh v) ->
  memo_ok (snd (cached v compute m)) /\ fst (cached v compute m) = fresh v.
Proof.
  intros Hm Hc. unfold cached. destruct (m_val m v) as [x|] eqn:E; [split; [auto|apply Hm; auto]|].
  destruct (Hc eq_refl) as [H1 H2]. destruct (compute m) as [x m']. cbn [fst snd] in *. subst x. split; [apply set_ok; auto|auto].
Qed.
Lemma pure_ok v x m : fresh v = x -> memo_ok m -> memo_ok (snd (cached v (pure x) m)) /\ fst (cached v (pure x) m) = fresh v.
Proof. intros E Hm. apply cached_ok; auto. Qed.

Lemma theta_in_ok m : memo_ok m -> memo_ok (snd (get ThetaIn m)) /\ fst (get ThetaIn m) = fresh ThetaIn.
Proof. apply pure_ok. reflexivity. Qed.
Lemma theta_out_ok m : memo_ok m -> memo_ok (snd (get ThetaOut m)) /\ fst (get ThetaOut m) = fresh ThetaOut.
Proof. apply pure_ok. reflexivity. Qed.
Lemma phi_in_ok m : memo_ok m -> memo_ok (snd (get PhiIn m)) /\ fst (get PhiIn m) = fresh PhiIn.
Proof. apply pure_ok. reflexivity. Qed.
Lemma phi_out_ok m : memo_ok m -> memo_ok (snd (get PhiOut m)) /\ fst (get PhiOut m) = fresh PhiOut.
Proof. apply pure_ok. reflexivity. Qed.

Ltac step H m := destruct (H m) as [? ?]; [assumption|].
Lemma set_dd_ok m : memo_ok m -> memo_ok (set_dtheta_dphi sb m)
  /\ m_val (set_dtheta_dphi sb m) DTheta = Some (fresh DTheta) /\ m_val (set_dtheta_dphi sb m) DPhi = Some (fresh DPhi).
Proof.
  intro Hm. unfold set_dtheta_dphi.
  destruct (theta_in_ok m Hm) as [H1 F1]. cbn [get_var] in *. destruct (get_theta_in sb m) as [ti m1]. cbn [fst snd] in *.
  destruct (phi_in_ok m1 H1) as [H2 F2]. cbn [get_var] in *. destruct (get_phi_in sb m1) as [pi m2]. cbn [fst snd] in *.
  destruct (theta_out_ok m2 H2) as [H3 F3]. cbn [get_var] in *. destruct (get_theta_out sb m2) as [to m3]. cbn [fst snd] in *.
  destruct (phi_out_ok m3 H3) as [H4 F4]. cbn [get_var] in *. destruct (get_phi_out sb m3) as [po m4]. cbn [fst snd] in *.
  subst ti pi to po. cbn [m_val m_unc].
  assert (D1 : map (map fst) (angle_pairs (fresh ThetaIn) (fresh PhiIn) (fresh ThetaOut) (fresh PhiOut)) = fresh DTheta) by reflexivity.
  assert (D2 : map (map snd) (angle_pairs (fresh ThetaIn) (fresh PhiIn) (fresh ThetaOut) (fresh PhiOut)) = fresh DPhi) by reflexivity.
  split.
  - split; cbn [m_val m_unc]; intros v x E.
    + apply store_inv in E as [[-> E]|E]; [congruence|]. apply store_inv in E as [[-> E]|E]; [congruence|]. apply H4; auto.
    + apply store_inv in E as [[-> E]|E]; [discriminate|]. apply store_inv in E as [[-> E]|E]; [discriminate|]. apply H4; auto.
  - unfold store. cbn [svar_eqb]. rewrite D1, D2. auto.
Qed.

Lemma xy_ok which (th ph v : svar) m : (forall m, memo_ok m -> memo_ok (snd (get th m)) /\ fst (get th m) = fresh th) ->
  (forall m, memo_ok m -> memo_ok (snd (get ph m)) /\ fst (get ph m) = fresh ph) ->
  which (fresh th) (fresh ph) = fresh v -> memo_ok m ->
  let f := fun m => let '(t, m) := get th m in let '(p, m) := get ph m in (which t p, m) in
  memo_ok (snd (cached v f m)) /\ fst (cached v f m) = fresh v.
Proof.
  intros Ht Hp Hv Hm f. apply cached_ok; auto. intros _. unfold f. destruct (Ht m Hm) as [H1 F1]. destruct (get th m) as [t m1]. cbn [fst snd] in *.
  destruct (Hp m1 H1) as [H2 F2]. destruct (get ph m1) as [p m2]. cbn [fst snd] in *. subst. auto.
Qed.

Lemma get_ok v m : memo_ok m -> memo_ok (snd (get v m)) /\ fst (get v m) = fresh v.
Proof.
  intro Hm.
  assert (XI : forall m, memo_ok m -> memo_ok (snd (get ThetaXyIn m)) /\ fst (get ThetaXyIn m) = fresh ThetaXyIn)
    by (intros m' Hm'; apply (xy_ok theta_xy_rows ThetaIn PhiIn ThetaXyIn m' theta_in_ok phi_in_ok eq_refl Hm')).
  assert (XO : forall m, memo_ok m -> memo_ok (snd (get ThetaXyOut m)) /\ fst (get ThetaXyOut m) = fresh ThetaXyOut)
    by (intros m' Hm'; apply (xy_ok theta_xy_rows ThetaOut PhiOut ThetaXyOut m' theta_out_ok phi_out_ok eq_refl Hm')).
  destruct v; try (apply pure_ok; [reflexivity|auto]); try (apply XI; auto); try (apply XO; auto).
  - cbn [get_var]. unfold get_dtheta. destruct (m_val m DTheta) as [x|] eqn:E.
    + rewrite E. split; [auto|]. apply Hm; auto.
    + destruct (set_dd_ok m Hm) as (H & -> & _). auto.
  - cbn [get_var]. unfold get_dphi. destruct (m_val m DPhi) as [x|] eqn:E.
    + rewrite E. split; [auto|]. apply Hm; auto.
    + destruct (set_dd_ok m Hm) as (H & _ & ->). auto.
  - apply (xy_ok (fun a b => map2 (map2 (fun x y => xabs (xsub x y))) a b) ThetaXyIn ThetaXyOut DThetaXy m XI XO eq_refl Hm).
Qed.

Lemma reads_ok reads : forall m, memo_ok m ->
  fst (read_all zr sb unc_of reads m) = map (fun vu : svar * bool => let (v, u) := vu in if u then unc_of v (fresh v) else fresh v) reads.
Proof.
  induction reads as [|[v u] reads IH]; intros m Hm; cbn [read_all map]; [reflexivity|].
  assert (memo_ok (snd (if u then get_unc zr sb unc_of v m else get v m)) /\ fst (if u then get_unc zr sb unc_of v m else get v m) = if u then unc_of v (fresh v) else fresh v) as [H1 H2].
  { destruct u; [|apply get_ok; auto]. unfold get_unc. destruct (m_unc m v) as [x|] eqn:E; [split; [auto|apply Hm; auto]|].
    destruct (get_ok v m Hm) as [H1 H2]. destruct (get v m) as [x m1]. cbn [fst snd] in *. subst x. split; [|auto].
    split; cbn [m_val m_unc]; [apply H1|]. intros w y E'. apply store_inv in E' as [[-> E']|E']; [congruence|apply H1; auto]. }
  destruct (if u then get_unc zr sb unc_of v m else get v m) as [x m1]. cbn [fst snd] in *. subst x.
  specialize (IH m1 H1). destruct (read_all zr sb unc_of reads m1) as [xs m2]. cbn [fst] in *. congruence.
Qed.
End LazyP.

Lemma map2_same {A B C D} (f : B -> C -> D) (g : A -> B) (h : A -> C) l : map2 f (map g l) (map h l) = map (fun a => f (g a) (h a)) l.
Proof. induction l; simpl; auto. f_equal; auto. Qed.
Lemma fresh_value zr sb v : fresh zr sb v = value zr sb v.
Proof.
  destruct v; try reflexivity; unfold fresh; cbn [get_var value].
  - change (fst (get_dtheta sb empty_memo)) with (map (map fst) (angle_pairs (fresh zr sb ThetaIn) (fresh zr sb PhiIn) (fresh zr sb ThetaOut) (fresh zr sb PhiOut))).
    change (fresh zr sb ThetaIn) with (per_muon sb (fun ts => [theta1 (t_vec (fst ts))])). change (fresh zr sb ThetaOut) with (per_muon sb (fun ts => [theta1 (t_vec (snd ts))])).
    change (fresh zr sb PhiIn) with (per_muon sb (fun ts => [phi1 (vx (t_vec (fst ts))) (vy (t_vec (fst ts)))])). change (fresh zr sb PhiOut) with (per_muon sb (fun ts => [phi1 (vx (t_vec (snd ts))) (vy (t_vec (snd ts)))])).
    unfold angle_pairs, per_muon. rewrite !map2_same, map_map. reflexivity.
  - change (fst (get_dphi sb empty_memo)) with (map (map snd) (angle_pairs (fresh zr sb ThetaIn) (fresh zr sb PhiIn) (fresh zr sb ThetaOut) (fresh zr sb PhiOut))).
    change (fresh zr sb ThetaIn) with (per_muon sb (fun ts => [theta1 (t_vec (fst ts))])). change (fresh zr sb ThetaOut) with (per_muon sb (fun ts => [theta1 (t_vec (snd ts))])).
    change (fresh zr sb PhiIn) with (per_muon sb (fun ts => [phi1 (vx (t_vec (fst ts))) (vy (t_vec (fst ts)))])). change (fresh zr sb PhiOut) with (per_muon sb (fun ts => [phi1 (vx (t_vec (snd ts))) (vy (t_vec (snd ts)))])).
    unfold angle_pairs, per_muon. rewrite !map2_same, map_map. reflexivity.
  - change (fst (get_theta_xy_in sb empty_memo)) with (theta_xy_rows (per_muon sb (fun ts => [theta1 (t_vec (fst ts))])) (per_muon sb (fun ts => [phi1 (vx (t_vec (fst ts))) (vy (t_vec (fst ts)))]))).
    unfold theta_xy_rows, per_muon. rewrite map2_same. reflexivity.
  - change (fst (get_theta_xy_out sb empty_memo)) with (theta_xy_rows (per_muon sb (fun ts => [theta1 (t_vec (snd ts))])) (per_muon sb (fun ts => [phi1 (vx (t_vec (snd ts))) (vy (t_vec (snd ts)))]))).
    unfold theta_xy_rows, per_muon. rewrite map2_same. reflexivity.
  - change (fst (get_dtheta_xy sb empty_memo)) with (map2 (map2 (fun x y => xabs (xsub x y)))
      (theta_xy_rows (per_muon sb (fun ts => [theta1 (t_vec (fst ts))])) (per_muon sb (fun ts => [phi1 (vx (t_vec (fst ts))) (vy (t_vec (fst ts)))])))
      (theta_xy_rows (per_muon sb (fun ts => [theta1 (t_vec (snd ts))])) (per_muon sb (fun ts => [phi1 (vx (t_vec (snd ts))) (vy (t_vec (snd ts)))])))).
    unfold theta_xy_rows, per_muon. rewrite !map2_same. reflexivity.
Qed.
Lemma cached_reads zr sb unc_of reads :
  fst (read_all zr sb unc_of reads empty_memo)
  = map (fun vu : svar * bool => if snd vu then unc_of (fst vu) (value zr sb (fst vu)) else value zr sb (fst vu)) reads.
Proof.
  rewrite (reads_ok zr sb unc_of reads _ (empty_ok zr sb unc_of)). apply map_ext. intros [v u]. cbn [fst snd]. rewrite fresh_value. reflexivity.
Qed.
