From Coq Require Import Reals Lra Lia List.
From Verif Require Import Model.DetCb Spec.DetCbSpec.
Import ListNotations.
Open Scope R_scope.
Open Scope list_scope.

Definition ext (m m' : mem) : Prop := exists e, m' = m ++ e.
Lemma ext_refl m : ext m m. Proof. exists []. now rewrite app_nil_r. Qed.
Lemma ext_trans a b c : ext a b -> ext b c -> ext a c.
Proof. intros [e ->] [f ->]. exists (e ++ f). now rewrite app_assoc. Qed.
Lemma ext_alloc m t : ext m (m ++ [t]). Proof. now exists [t]. Qed.
Lemma ext_len m m' : ext m m' -> (length m <= length m')%nat. Proof. intros [e ->]. rewrite app_length. lia. Qed.
Lemma ext_rd m m' a : ext m m' -> (a < length m)%nat -> rd m' a = rd m a.
Proof. intros [e ->] H. unfold rd. now rewrite app_nth1. Qed.
Lemma rd_new m t : rd (m ++ [t]) (length m) = t.
Proof. unfold rd. now rewrite nth_middle. Qed.
Lemma rd_in m a n : length (rd m a) = S n -> (a < length m)%nat.
Proof. intros H. destruct (Nat.lt_ge_cases a (length m)) as [L|L]; [exact L|]. unfold rd in H. rewrite nth_overflow in H by exact L. discriminate. Qed.
Lemma shaped_in m p : shaped m p -> (a_xy p < length m /\ a_z p < length m /\ a_span p < length m)%nat.
Proof. intros (A & B & C). repeat split; eapply rd_in; eauto. Qed.

(* q refers to copies, made between m and m1, of what p referred to *)
Definition copy (m m1 : mem) (p q : ppar) : Prop :=
  (length m <= a_xy q < length m1 /\ length m <= a_z q < length m1 /\ length m <= a_span q < length m1)%nat /\
  rd m1 (a_xy q) = rd m (a_xy p) /\ rd m1 (a_z q) = rd m (a_z p) /\ rd m1 (a_span q) = rd m (a_span p).
Lemma copy_ext m m1 m2 p q : copy m m1 p q -> ext m1 m2 -> copy m m2 p q.
Proof.
  intros ((A & B & C) & D & E & F) X. pose proof (ext_len _ _ X). split; [lia|]. rewrite !(ext_rd m1 m2) by (auto; lia). auto.
Qed.
Lemma copy_pre m0 m m1 p q : ext m0 m -> shaped m0 p -> copy m m1 p q -> copy m0 m1 p q.
Proof.
  intros X S ((A & B & C) & D & E & F). pose proof (ext_len _ _ X). destruct (shaped_in _ _ S) as (U & V & W). split; [lia|].
  rewrite !(ext_rd m0 m) in * by auto. auto.
Qed.
Lemma shaped_ext m m1 p : ext m m1 -> shaped m p -> shaped m1 p.
Proof. intros X S. destruct (shaped_in _ _ S) as (U & V & W). destruct S as (A & B & C). unfold shaped. rewrite !(ext_rd m m1) by auto. auto. Qed.
Lemma record1_spec m p : shaped m p -> exists m1 q, record1 m p = (m1, q) /\ ext m m1 /\ copy m m1 p q.
Proof.
  intros Sh. destruct (shaped_in _ _ Sh) as (U & V & W). unfold record1, alloc. do 2 eexists. split; [reflexivity|].
  assert (X1 : ext m (m ++ [rd m (a_xy p)])) by apply ext_alloc. assert (X2 := ext_alloc (m ++ [rd m (a_xy p)]) (rd (m ++ [rd m (a_xy p)]) (a_z p))).
  set (m1 := m ++ [rd m (a_xy p)]) in *. set (m2 := m1 ++ [rd m1 (a_z p)]) in *. assert (X3 := ext_alloc m2 (rd m2 (a_span p))). set (m3 := m2 ++ [rd m2 (a_span p)]) in *.
  assert (L1 : length m1 = S (length m)) by (unfold m1; rewrite app_length; cbn; lia). assert (L2 : length m2 = S (length m1)) by (unfold m2; rewrite app_length; cbn; lia).
  assert (L3 : length m3 = S (length m2)) by (unfold m3; rewrite app_length; cbn; lia).
  split; [eapply ext_trans; [exact X1|eapply ext_trans; eauto]|]. split; [cbn [a_xy a_z a_span]; lia|]. cbn [a_xy a_z a_span].
  split; [|split].
  - rewrite (ext_rd m2 m3), (ext_rd m1 m2) by (auto; lia). unfold m1. apply rd_new.
  - rewrite (ext_rd m2 m3) by (auto; lia). unfold m2 at 1. rewrite rd_new. now apply ext_rd.
  - unfold m3. rewrite rd_new. rewrite (ext_rd m1 m2) by (auto; lia). now apply ext_rd.
Qed.
Lemma record_panels_spec ps : forall m, Forall (shaped m) ps -> exists m1 qs, record_panels m ps = (m1, qs) /\ ext m m1 /\ Forall2 (copy m m1) ps qs.
Proof.
  induction ps as [|p ps IH]; intros m S; [exists m, []; cbn; auto using ext_refl|]. inversion S as [|? ? S1 S2]; subst. cbn [record_panels].
  destruct (record1_spec m p S1) as (m1 & q & -> & X & C). destruct (IH m1) as (m2 & qs & -> & X2 & F); [revert S2; apply Forall_impl; intros; now apply (shaped_ext m m1)|].
  exists m2, (q :: qs). split; [reflexivity|]. split; [eapply ext_trans; eauto|]. constructor; [eapply copy_ext; eauto|].
  clear -X F S2. induction F; constructor; inversion S2; subst; auto. eapply copy_pre; eauto.
Qed.
Lemma lim_backwards_spec ds : forall m, Forall (shaped m) (panels_of ds) -> ~ In DHeat ds ->
  exists m1 rec, lim_backwards_end m ds = Ok (m1, rec) /\ ext m m1 /\ Forall2 (copy m m1) (panels_of ds) rec.
Proof.
  induction ds as [|d ds IH]; intros m S N; [exists m, []; cbn; auto using ext_refl|]. cbn [panels_of flat_map] in *. apply Forall_app in S as [S1 S2].
  assert (N' : ~ In DHeat ds) by (intros H; apply N; now right). destruct d as [ps| |].
  - cbn [lim_backwards_end]. destruct (record_panels_spec ps m S1) as (m1 & qs & -> & X & F).
    destruct (IH m1) as (m2 & rs & -> & X2 & F2); [revert S2; apply Forall_impl; intros; now apply (shaped_ext m m1)|exact N'|]. cbn [bind]. exists m2, (qs ++ rs).
    split; [reflexivity|]. split; [eapply ext_trans; eauto|]. apply Forall2_app.
    + clear -F X2. induction F; constructor; auto. eapply copy_ext; eauto.
    + clear -X F2 S2. fold (panels_of ds) in *. revert S2. induction F2; intros S2; constructor; inversion S2; subst; auto. eapply copy_pre; eauto.
  - exfalso. apply N. now left.
  - cbn [lim_backwards_end]. now apply IH.
Qed.

(* one entry *)
Lemma limit1_fin b o n : exists r, limit1 b (Fin o) (Fin n) = Fin r /\ (0 <= b -> step_ok b o n r).
Proof.
  unfold limit1, xsub. cbn [xopp xadd xabs xlt]. destruct (Rltb_spec b (Rabs (n + - o))) as [L|L].
  - cbn [xsign]. destruct (Rltb_spec 0 (n + - o)) as [P|P]; [|destruct (Rltb_spec (n + - o) 0) as [P2|P2]]; cbn [xmul xadd]; eexists; (split; [reflexivity|]); intros B; unfold step_ok.
    + replace (o + 1 * b - o) with b by ring. rewrite (Rabs_pos_eq b) by lra. rewrite Rabs_pos_eq in L by lra. replace (n - o) with (n + - o) by ring. rewrite Rabs_pos_eq by lra. repeat split; try lra. apply Rmult_le_pos; lra.
    + replace (o + -1 * b - o) with (- b) by ring. rewrite Rabs_Ropp, (Rabs_pos_eq b) by lra. rewrite Rabs_left in L by lra. replace (n - o) with (n + - o) by ring. rewrite Rabs_left by lra. repeat split; try lra.
      replace (- b * (n + - o)) with (b * - (n + - o)) by ring. apply Rmult_le_pos; lra.
    + exfalso. assert (E : n + - o = 0) by lra. rewrite E, Rabs_R0 in L. lra.
  - eexists. split; [reflexivity|]. intros B. unfold step_ok. replace (n - o) with (n + - o) by ring. repeat split; try lra. apply Rle_0_sqr.
Qed.
Lemma limit_spec bs old new : length old = length bs -> length new = length bs -> exists t, limit bs old new = Ok t /\ length t = length new /\
  (Forall (fun b => 0 <= b) bs -> forall k b o n, nth_error bs k = Some b -> nth_error old k = Some (Fin o) -> nth_error new k = Some (Fin n) -> exists r, nth_error t k = Some (Fin r) /\ step_ok b o n r).
Proof.
  intros L1 L2. unfold limit. rewrite L1, L2, Nat.eqb_refl. cbn [andb]. eexists. split; [reflexivity|]. split.
  - rewrite map2_length, combine_length. lia.
  - revert old new L1 L2. induction bs as [|b0 bs IH]; intros [|o0 old] [|n0 new] L1 L2 F [|k] b o n E1 E2 E3; try discriminate.
    + cbn in E1, E2, E3. injection E1 as ->. injection E2 as ->. injection E3 as ->. cbn [combine map2 nth_error fst snd]. destruct (limit1_fin b o n) as (r & -> & H). exists r. inversion F; subst. auto.
    + cbn in E1, E2, E3. cbn [combine map2 nth_error]. inversion F; subst. eapply IH; eauto.
Qed.
Lemma limit_par_spec bs m old new k : (match bs with Some bs => length bs = S k | None => True end) -> length (rd m old) = S k -> length (rd m new) = S k -> not_negative bs ->
  exists m1 a, limit_par bs m old new = Ok (m1, a) /\ ext m m1 /\ (a < length m1)%nat /\ bounded_step bs (rd m old) (rd m new) (rd m1 a).
Proof.
  intros Hb H1 H2 HN. destruct bs as [bs|]; cbn [limit_par].
  - destruct (limit_spec bs (rd m old) (rd m new)) as (t & -> & L & H); try congruence. cbn [bind]. unfold alloc. do 2 eexists. split; [reflexivity|]. split; [apply ext_alloc|]. rewrite rd_new.
    split; [rewrite app_length; cbn; lia|]. split; [exact L|]. intros. eapply H; eauto.
  - exists m, new. split; [reflexivity|]. split; [apply ext_refl|]. split; [eapply rd_in; eauto|]. reflexivity.
Qed.
Lemma map_xy lm : option_map pair_list (l_xy lm) = bounds_xy lm. Proof. unfold bounds_xy. now destruct (l_xy lm) as [[x y]|]. Qed.
Lemma map_z lm : option_map (fun z => [z]) (l_z lm) = bounds_z lm. Proof. unfold bounds_z. now destruct (l_z lm). Qed.
Lemma map_span lm : option_map pair_list (l_span lm) = bounds_span lm. Proof. unfold bounds_span. now destruct (l_span lm) as [[x y]|]. Qed.
Definition lim_ok (lm : limits) : Prop := not_negative (bounds_xy lm) /\ not_negative (bounds_z lm) /\ not_negative (bounds_span lm).
(* panel r in m3 is panel p in m2, moved from where o was in m by a bounded step *)
Definition moved (lm : limits) (m m2 m3 : mem) (o p r : ppar) : Prop :=
  (a_xy r < length m3 /\ a_z r < length m3 /\ a_span r < length m3)%nat /\
  bounded_step (bounds_xy lm) (rd m (a_xy o)) (rd m2 (a_xy p)) (rd m3 (a_xy r)) /\
  bounded_step (bounds_z lm) (rd m (a_z o)) (rd m2 (a_z p)) (rd m3 (a_z r)) /\
  bounded_step (bounds_span lm) (rd m (a_span o)) (rd m2 (a_span p)) (rd m3 (a_span r)).
Lemma moved_ext lm m m2 m3 m4 o p r : moved lm m m2 m3 o p r -> ext m3 m4 -> moved lm m m2 m4 o p r.
Proof. intros ((A & B & C) & D & E & F) X. pose proof (ext_len _ _ X). split; [lia|]. rewrite !(ext_rd m3 m4) by (auto; lia). auto. Qed.
Lemma moved_same lm m m' m2 m2' m3 o o' p r : shaped m2 p -> ext m2 m2' ->
  rd m' (a_xy o') = rd m (a_xy o) -> rd m' (a_z o') = rd m (a_z o) -> rd m' (a_span o') = rd m (a_span o) -> moved lm m' m2' m3 o' p r -> moved lm m m2 m3 o p r.
Proof.
  intros S X E1 E2 E3 (A & B & C & D). destruct (shaped_in _ _ S) as (U & V & W). rewrite !(ext_rd m2 m2') in * by auto. rewrite E1, E2, E3 in *. split; auto.
Qed.
Lemma limit_panel_spec lm m o p : lim_ok lm -> shaped m o -> shaped m p -> exists m1 q, limit_panel lm m o p = Ok (m1, q) /\ ext m m1 /\ moved lm m m m1 o p q.
Proof.
  intros (N1 & N2 & N3) S1 S2. pose proof S1 as (O1 & O2 & O3). pose proof S2 as (P1 & P2 & P3). unfold limit_panel. rewrite map_xy, map_z, map_span.
  destruct (limit_par_spec (bounds_xy lm) m (a_xy o) (a_xy p) 1) as (m1 & a & -> & X1 & La & Ba); auto; [unfold bounds_xy; now destruct (l_xy lm) as [[]|]|]. cbn [bind].
  destruct (shaped_ext m m1 o X1 S1) as (O1' & O2' & O3'). destruct (shaped_ext m m1 p X1 S2) as (P1' & P2' & P3').
  destruct (limit_par_spec (bounds_z lm) m1 (a_z o) (a_z p) 0) as (m2 & b & -> & X2 & Lb & Bb); auto; [unfold bounds_z; now destruct (l_z lm)|]. cbn [bind].
  assert (X12 : ext m m2) by (eapply ext_trans; eauto).
  destruct (shaped_ext m m2 o X12 S1) as (O1'' & O2'' & O3''). destruct (shaped_ext m m2 p X12 S2) as (P1'' & P2'' & P3'').
  destruct (limit_par_spec (bounds_span lm) m2 (a_span o) (a_span p) 1) as (m3 & c & -> & X3 & Lc & Bc); auto; [unfold bounds_span; now destruct (l_span lm) as [[]|]|]. cbn [bind].
  exists m3, (PPar a b c). split; [reflexivity|]. split; [eapply ext_trans; eauto|]. pose proof (ext_len _ _ X2). pose proof (ext_len _ _ X3). unfold moved. cbn [a_xy a_z a_span]. split; [lia|].
  assert (X23 : ext m1 m3) by (eapply ext_trans; eauto). rewrite (ext_rd m1 m3 a), (ext_rd m2 m3 b) by (auto; lia).
  destruct (shaped_in _ _ S1) as (? & ? & ?). destruct (shaped_in _ _ S2) as (? & ? & ?).
  rewrite (ext_rd m m1 (a_z o)), (ext_rd m m1 (a_z p)) in Bb by auto. rewrite (ext_rd m m2 (a_span o)), (ext_rd m m2 (a_span p)) in Bc by auto. auto.
Qed.
Lemma Forall2_imp {A B} (P Q : A -> B -> Prop) l l' : (forall a b, In a l -> In b l' -> P a b -> Q a b) -> Forall2 P l l' -> Forall2 Q l l'.
Proof. intros H F. induction F; constructor; [apply H; cbn; auto|apply IHF; intros; apply H; cbn; auto]. Qed.
Inductive Forall3 {A B C} (P : A -> B -> C -> Prop) : list A -> list B -> list C -> Prop :=
| F3nil : Forall3 P [] [] []
| F3cons a b c l1 l2 l3 : P a b c -> Forall3 P l1 l2 l3 -> Forall3 P (a :: l1) (b :: l2) (c :: l3).
Lemma Forall3_imp {A B C} (P Q : A -> B -> C -> Prop) l1 l2 l3 : (forall a b c, In a l1 -> In b l2 -> P a b c -> Q a b c) -> Forall3 P l1 l2 l3 -> Forall3 Q l1 l2 l3.
Proof. intros H F. induction F; constructor; [apply H; cbn; auto|apply IHF; intros; apply H; cbn; auto]. Qed.
Lemma Forall3_app {A B C} (P : A -> B -> C -> Prop) l1 l2 l3 k1 k2 k3 : Forall3 P l1 l2 l3 -> Forall3 P k1 k2 k3 -> Forall3 P (l1 ++ k1) (l2 ++ k2) (l3 ++ k3).
Proof. intros F G. induction F; cbn; [exact G|now constructor]. Qed.
Lemma Forall3_nth {A B C} (P : A -> B -> C -> Prop) l1 l2 l3 i a b c : Forall3 P l1 l2 l3 -> nth_error l1 i = Some a -> nth_error l2 i = Some b -> nth_error l3 i = Some c -> P a b c.
Proof. intros F. revert i. induction F; intros [|i] E1 E2 E3; try discriminate; cbn in *; [congruence|eauto]. Qed.
Lemma moved_first lm m m1 m3 o p r : shaped m o -> shaped m p -> ext m m1 -> moved lm m1 m1 m3 o p r -> moved lm m m m3 o p r.
Proof. intros S S2 X. pose proof (ext_rd m m1). destruct (shaped_in _ _ S) as (? & ? & ?). apply moved_same; auto. Qed.
Lemma limit_panels_spec lm : lim_ok lm -> forall ps recs rest m, length recs = length ps -> Forall (shaped m) recs -> Forall (shaped m) ps ->
  exists m1 qs, limit_panels lm m (recs ++ rest) ps = Ok (m1, rest, qs) /\ ext m m1 /\ length qs = length ps /\ Forall3 (moved lm m m m1) recs ps qs.
Proof.
  intros N. induction ps as [|p ps IH]; intros [|o recs] rest m L S1 S2; cbn in L; [exists m, []; destruct rest; cbn; auto using ext_refl, @F3nil|lia|lia|].
  apply Forall_cons_iff in S1 as [So Sos]. apply Forall_cons_iff in S2 as [Sp Sps]. cbn [limit_panels app].
  destruct (limit_panel_spec lm m o p N So Sp) as (m1 & q & -> & X & M). cbn [bind].
  destruct (IH recs rest m1) as (m2 & qs & -> & X2 & Lq & F); [cbn in L; lia| | |]; try (eapply Forall_impl; [|eassumption]; intros; now apply (shaped_ext m m1)).
  cbn [bind]. exists m2, (q :: qs). split; [reflexivity|]. split; [eapply ext_trans; eauto|]. split; [cbn; lia|]. constructor; [eapply moved_ext; eauto|].
  revert F. apply Forall3_imp. intros a b c Ia Ib. rewrite Forall_forall in *. apply moved_first; auto.
Qed.
Lemma lim_step_spec lm : lim_ok lm -> forall ds recs m, length recs = length (panels_of ds) -> Forall (shaped m) recs -> Forall (shaped m) (panels_of ds) -> ~ In DHeat ds ->
  exists m1 ds1, lim_step_end lm m recs ds = Ok (m1, ds1) /\ ext m m1 /\ Forall2 same_kind ds ds1 /\ Forall3 (moved lm m m m1) recs (panels_of ds) (panels_of ds1).
Proof.
  intros N. induction ds as [|d ds IH]; intros recs m L S1 S2 NH.
  - exists m, []. destruct recs; [|discriminate]. cbn. auto using ext_refl, @F3nil.
  - assert (NH' : ~ In DHeat ds) by (intros H; apply NH; now right). destruct d as [ps| |].
    + cbn [panels_of flat_map] in *. fold (panels_of ds) in *. rewrite app_length in L. apply Forall_app in S2 as [S2 S3].
      assert (E : recs = firstn (length ps) recs ++ skipn (length ps) recs) by (symmetry; apply firstn_skipn).
      assert (L1 : length (firstn (length ps) recs) = length ps) by (rewrite firstn_length; lia). assert (L2 : length (skipn (length ps) recs) = length (panels_of ds)) by (rewrite skipn_length; lia).
      rewrite E in S1 |- *. set (r1 := firstn (length ps) recs) in *. set (r2 := skipn (length ps) recs) in *. apply Forall_app in S1 as [S0 S1]. cbn [lim_step_end].
      destruct (limit_panels_spec lm N ps r1 r2 m L1 S0 S2) as (m1 & qs & -> & X & Lq & F). cbn [bind].
      destruct (IH r2 m1 L2) as (m2 & ds1 & -> & X2 & K & F2); auto; try (eapply Forall_impl; [|eassumption]; intros; now apply (shaped_ext m m1)). cbn [bind].
      exists m2, (DPanels qs :: ds1). split; [reflexivity|]. split; [eapply ext_trans; eauto|]. split; [constructor; auto; cbn; lia|]. cbn [panels_of flat_map]. fold (panels_of ds1). apply Forall3_app.
      * revert F. apply Forall3_imp. intros. eapply moved_ext; eauto.
      * revert F2. apply Forall3_imp. intros a b c Ia Ib. rewrite Forall_forall in *. apply moved_first; auto.
    + exfalso. apply NH. now left.
    + cbn [panels_of flat_map app] in *. fold (panels_of ds) in *. cbn [lim_step_end]. destruct (IH recs m L S1 S2 NH') as (m1 & ds1 & -> & X & K & F). cbn [bind].
      exists m1, (DOther :: ds1). split; [reflexivity|]. split; [exact X|]. split; [constructor; auto; exact I|]. exact F.
Qed.
Lemma same_kind_len ds ds2 : Forall2 same_kind ds ds2 -> length (panels_of ds2) = length (panels_of ds) /\ (~ In DHeat ds2) /\ ~ In DHeat ds.
Proof.
  intros F. induction F as [|d d2 ds ds2 K F IH]; [cbn; tauto|]. destruct IH as (L & A & B). cbn [panels_of flat_map]. fold (panels_of ds) (panels_of ds2). rewrite !app_length.
  destruct d, d2; cbn in K; try contradiction; cbn [length]; (split; [lia|]); split; intros [Q|Q]; try discriminate; auto.
Qed.

(* ---------- centring ---------- *)
Lemma xtotal_map_fin l : xtotal (map Fin l) = Fin (Rsum l).
Proof. induction l as [|x l IH]; [reflexivity|]. change (xtotal (map Fin (x :: l))) with (xadd (Fin x) (xtotal (map Fin l))). rewrite IH. reflexivity. Qed.
Lemma mean_rows2 rows xs : rows = map (fun p => [Fin (fst p); Fin (snd p)]) xs -> xs <> [] ->
  mean_rows rows = [Fin (Rsum (map fst xs) / INR (length xs)); Fin (Rsum (map snd xs) / INR (length xs))].
Proof.
  intros -> N. destruct xs as [|x xs]; [congruence|]. set (l := x :: xs). unfold mean_rows. replace (length (hd [] (map (fun p : R * R => [Fin (fst p); Fin (snd p)]) l))) with 2%nat by reflexivity. cbn [seq map].
  rewrite !map_map. cbn [nth]. unfold xmean. rewrite !map_length.
  assert (I : INR (length l) <> 0) by (apply not_0_INR; discriminate).
  replace (map (fun p : R * R => Fin (fst p)) l) with (map Fin (map fst l)) by apply map_map. replace (map (fun p : R * R => Fin (snd p)) l) with (map Fin (map snd l)) by apply map_map.
  rewrite !xtotal_map_fin, !xdiv_fin by exact I. reflexivity.
Qed.
Lemma rd_wr_same m a t : (a < length m)%nat -> rd (wr m a t) a = t.
Proof. revert a. induction m as [|x m IH]; intros [|a] H; cbn in *; try lia; auto. apply IH. lia. Qed.
Lemma rd_wr_other m a b t : a <> b -> rd (wr m a t) b = rd m b.
Proof. revert a b. induction m as [|x m IH]; intros [|a] [|b] H; cbn in *; try lia; auto; try congruence. apply IH. lia. Qed.
Lemma wr_length m a t : length (wr m a t) = length m.
Proof. revert a. induction m as [|x m IH]; intros [|a]; cbn; auto. Qed.
Lemma opt_step_shared us : forall m a x y, (a < length m)%nat -> rd m a = [Fin x; Fin y] ->
  rd (opt_step m (map (fun u => (a, [Fin (fst u); Fin (snd u)])) us)) a = [Fin (x + Rsum (map fst us)); Fin (y + Rsum (map snd us))].
Proof.
  induction us as [|u us IH]; intros m a x y L E.
  - cbn [map opt_step Rsum]. rewrite E. change (Rsum []) with 0. now rewrite !Rplus_0_r.
  - cbn [map opt_step]. rewrite E. cbn [map2 xadd]. rewrite (IH _ a (x + fst u) (y + snd u)); [|now rewrite wr_length|now apply rd_wr_same]. cbn [Rsum]. change (Rsum (fst u :: map fst us)) with (fst u + Rsum (map fst us)). change (Rsum (snd u :: map snd us)) with (snd u + Rsum (map snd us)).
    now rewrite !Rplus_assoc.
Qed.
Lemma centre_spec ds : forall m m' ds', centre m ds = Ok (m', ds') -> Forall (shaped m) (panels_of ds) -> ext m m' /\ Forall2 (fun d d' => exists ps a, d = DPanels ps /\ d' = DPanels (map (fun p => PPar a (a_z p) (a_span p)) ps) /\
  (length m <= a < length m')%nat /\ rd m' a = mean_rows (map (fun p => rd m (a_xy p)) ps)) ds ds'.
Proof.
  induction ds as [|d ds IH]; intros m m' ds' E S; [injection E as <- <-; split; [apply ext_refl|constructor]|]. destruct d as [ps| |]; try discriminate.
  cbn [centre] in E. unfold alloc in E. cbn [panels_of flat_map] in S. fold (panels_of ds) in S. apply Forall_app in S as [S1 S2]. set (t := mean_rows _) in E. assert (X := ext_alloc m t).
  destruct (centre (m ++ [t]) ds) as [[m2 ds2]|] eqn:E2; [|discriminate]. cbn [bind] in E. injection E as <- <-.
  destruct (IH _ _ _ E2) as [X2 F]; [eapply Forall_impl; [|exact S2]; intros; now apply (shaped_ext m)|]. pose proof (ext_len _ _ X2) as L2. rewrite app_length in L2. cbn [length] in L2.
  split; [eapply ext_trans; eauto|]. constructor.
  - exists ps, (length m). split; [reflexivity|]. split; [reflexivity|]. split; [lia|]. rewrite (ext_rd (m ++ [t]) m2) by (auto; rewrite app_length; cbn; lia). apply rd_new.
  - revert F. apply Forall2_imp. intros d d' Id _ (qs & a & -> & -> & La & R). exists qs, a. split; [reflexivity|]. split; [reflexivity|]. split; [rewrite app_length in La; lia|]. rewrite R. f_equal. apply map_ext_in. intros p Hp. apply ext_rd; [exact X|].
    assert (P : In p (panels_of ds)) by (apply in_flat_map; exists (DPanels qs); auto). rewrite Forall_forall in S2. now destruct (shaped_in _ _ (S2 p P)).
Qed.

(* ---------- gradients ---------- *)
Lemma clean_entry a : cleaned a (nan_to_num a).
Proof. destruct a; unfold cleaned; cbn; repeat split; try discriminate; try congruence; eauto. Qed.
Lemma clean_grad g : has_grad g -> exists h, clean g = Ok h /\ cleaned_grad g h.
Proof. intros H. destruct g as [t|]; [|exfalso; now apply H]. cbn [clean]. eexists. split; [reflexivity|]. cbn. clear H. induction t; constructor; auto using clean_entry. Qed.
Lemma mapM_forall2 {A B} (f : A -> res B) (P : A -> Prop) (Q : A -> B -> Prop) l : (forall a, P a -> exists b, f a = Ok b /\ Q a b) -> Forall P l -> exists k, mapM f l = Ok k /\ Forall2 Q l k.
Proof.
  intros H F. induction F as [|a l Pa F (k & E & G)]; [exists []; auto|]. destruct (H a Pa) as (b & Eb & Qb). cbn [mapM]. rewrite Eb. cbn [bind]. rewrite E. cbn [bind]. eauto.
Qed.
Lemma clean_layer_spec l : with_grads l -> exists k, clean_layer l = Ok k /\ cleaned_layer l k.
Proof.
  destruct l as [ps|ps|]; cbn [with_grads clean_layer]; [| |contradiction]; intros H.
  - eapply (mapM_forall2 clean_panel) in H; [destruct H as (k & -> & F); cbn [rmap]; eexists; split; [reflexivity|exact F]|].
    intros [[a b] c] (A & B & C). destruct (clean_grad a A) as (a' & E1 & Ga). destruct (clean_grad b B) as (b' & E2 & Gb). destruct (clean_grad c C) as (c' & E3 & Gc).
    unfold clean_panel. rewrite E1. cbn [bind]. rewrite E2. cbn [bind]. rewrite E3. cbn [bind]. eexists. split; [reflexivity|]. cbn beta iota. auto.
  - eapply (mapM_forall2 clean_heat) in H; [destruct H as (k & -> & F); cbn [rmap]; eexists; split; [reflexivity|exact F]|].
    intros [[[a b] c] d] (A & B & C & D). destruct (clean_grad a A) as (a' & E1 & Ga). destruct (clean_grad b B) as (b' & E2 & Gb). destruct (clean_grad c C) as (c' & E3 & Gc). destruct (clean_grad d D) as (d' & E4 & Gd).
    unfold clean_heat. rewrite E1. cbn [bind]. rewrite E2. cbn [bind]. rewrite E3. cbn [bind]. rewrite E4. cbn [bind]. eexists. split; [reflexivity|]. cbn beta iota. auto.
Qed.
Lemma limit1_over b o n : 0 <= b -> b < n - o -> limit1 b (Fin o) (Fin n) = Fin (o + b).
Proof.
  intros B H. unfold limit1, xsub. cbn [xopp xadd xabs xlt xsign]. rewrite Rabs_pos_eq by lra. destruct (Rltb_spec b (n + - o)); [|lra]. destruct (Rltb_spec 0 (n + - o)); [|lra].
  cbn [xmul xadd]. f_equal. ring.
Qed.
Lemma limit1_under b o n : Rabs (n - o) <= b -> limit1 b (Fin o) (Fin n) = Fin n.
Proof. intros H. unfold limit1, xsub. cbn [xopp xadd xabs xlt]. destruct (Rltb_spec b (Rabs (n + - o))); [|reflexivity]. unfold Rminus in H. lra. Qed.
