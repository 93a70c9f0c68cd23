(* From the muons to the scatter batch of their true hits: C102. *)
From Coq Require Import Psatz.
From Verif Require Import Base.Trig Base.Masks Model.Volume Model.Scatter Spec.ListSpec Spec.MuonSpec Spec.AngleSpec Spec.LayerSpec Spec.VolumeSpec Spec.ScatterSpec Spec.EndToEndSpec.
From Verif Require Import Proofs.MuonBatchP Proofs.MuonConserve Proofs.MuonAngles Proofs.LayerP Proofs.LayerCross Proofs.PanelP Proofs.ScatterGeo Proofs.TrackFit Proofs.ScatterKeep Proofs.ScatterBatchP Proofs.TrueTrack.
Open Scope R_scope.
Open Scope string_scope.
Open Scope list_scope.

Definition same_line (c c' : go_case) : Prop :=
  g_th c' = g_th c /\ g_ph c' = g_ph c /\ g_p c' = g_p c /\ forall z, at_height c' z = at_height c z.
Lemma sl_refl c : same_line c c. Proof. repeat split. Qed.
Lemma sl_trans a b c : same_line a b -> same_line b c -> same_line a c.
Proof. intros (A1 & A2 & A3 & A4) (B1 & B2 & B3 & B4). split; [congruence|]. split; [congruence|]. split; [congruence|]. intro z. rewrite B4. auto. Qed.
Lemma sl_down c c' : same_line c c' -> downwards c -> downwards c'.
Proof. intros (A & _). unfold downwards. rewrite A. auto. Qed.

Lemma moved c z : downwards c -> exists c', at_height c z = g_mu c' /\ same_line c c'.
Proof.
  intro D. unfold downwards in D. assert (C : 0 < cos (g_th c)) by (pose proof PI_pos; apply cos_gt_0; lra).
  pose (s := (g_z c - z) / cos (g_th c)).
  exists (GC true (g_x c + s * (sin (g_th c) * cos (g_ph c))) (g_y c + s * (sin (g_th c) * sin (g_ph c))) (g_z c + s * - cos (g_th c)) (g_p c) (g_th c) (g_ph c) 0).
  assert (X : forall w, dir (g_th c) (g_ph c) = w -> w = (sin (g_th c) * cos (g_ph c), sin (g_th c) * sin (g_ph c), - cos (g_th c))) by (intros w <-; reflexivity).
  split; [reflexivity|]. do 3 (split; [reflexivity|]). intro z'. unfold at_height, along. cbn [g_x g_y g_z g_p g_th g_ph].
  unfold dir. fold s. f_equal; f_equal; unfold s; field; lra.
Qed.
Lemma moved_all cs z : (forall c, In c cs -> downwards c) -> exists cs', map (fun c => at_height c z) cs = map g_mu cs' /\ Forall2 same_line cs cs'.
Proof.
  induction cs as [|c cs IH]; intro D.
  - exists []. split; [reflexivity|constructor].
  - destruct IH as (cs' & E & F); [intros; apply D; right; auto|]. destruct (moved c z) as (c' & Ec & Fc); [apply D; left; auto|].
    exists (c' :: cs'). cbn [map]. rewrite Ec, E. split; [reflexivity|constructor; auto].
Qed.
Lemma sl_all_down cs cs' : Forall2 same_line cs cs' -> (forall c, In c cs -> downwards c) -> forall c, In c cs' -> downwards c.
Proof.
  induction 1 as [|c c' cs cs' S _ IH]; intros D x Hx; [destruct Hx|]. destruct Hx as [<-|Hx].
  - eapply sl_down; eauto. apply D; left; auto.
  - apply IH; auto. intros; apply D; right; auto.
Qed.
Lemma sl_at_height cs cs' z : Forall2 same_line cs cs' -> map (fun c => xyz (at_height c z)) cs' = map (fun c => xyz (at_height c z)) cs.
Proof. induction 1 as [|c c' cs cs' (_ & _ & _ & S) _ IH]; cbn [map]; [auto|]. rewrite IH, S. auto. Qed.
Lemma sl_len cs cs' : Forall2 same_line cs cs' -> len cs' = len cs.
Proof. induction 1; cbn; congruence. Qed.
Lemma sl_tr cs1 : forall cs2 cs3, Forall2 same_line cs1 cs2 -> Forall2 same_line cs2 cs3 -> Forall2 same_line cs1 cs3.
Proof.
  induction cs1; intros cs2 cs3 F G; inversion F; subst; inversion G; subst; constructor; eauto using sl_trans.
Qed.
Lemma sl_refls cs : Forall2 same_line cs cs.
Proof. induction cs; constructor; auto using sl_refl. Qed.

Section Cross.
Variables (argsort : list R -> list nat) (tr : bool) (o : vol_rng).
Hypothesis Ha : is_argsort argsort.
Notation cross := (cross_layers argsort tr o).

Lemma cross_dets p Ds : (forall D, In D Ds -> dl_pos D = p) ->
  forall rest k cs (b b' : batch hrow), (forall c, In c cs -> downwards c) -> b_muons b = map g_mu cs -> hits_ok hrow (len cs) (b_hits b) ->
  cross (map LDet Ds ++ rest) k b = Some (Ok b') ->
  exists cs' bm, Forall2 same_line cs cs' /\ b_muons bm = map g_mu cs' /\ hits_ok hrow (len cs) (b_hits bm)
    /\ (forall q v, q <> p -> recorded q v (b_hits bm) = recorded q v (b_hits b))
    /\ recorded p "gen_xyz" (b_hits bm) = recorded p "gen_xyz" (b_hits b) ++ map (fun z => map (fun c => xyz (at_height c z)) cs) (hit_heights p (map LDet Ds))
    /\ (forall v, In v hit_variables -> len (recorded p v (b_hits bm)) = (len (recorded p v (b_hits b)) + len (hit_heights p (map LDet Ds)))%nat)
    /\ cross rest (k + len Ds) bm = Some (Ok b').
Proof.
  induction Ds as [|D Ds IH]; intros Hp rest k cs b b' Hd Em Hh E.
  - exists cs, b. cbn in *. rewrite app_nil_r, Nat.add_0_r. split; [apply sl_refls|]. do 3 (split; [auto|]). split; [auto|]. split; [intros; lia|auto].
  - cbn [map app cross_layers] in E. destruct (det_forward argsort D tr (vr_det o k) b) as [b1|] eqn:E1; [|discriminate].
    destruct (det_forward_spec _ _ _ _ cs _ _ Ha Hd Em Hh E1) as (M1 & _ & _ & Hh1 & Ro & Rg & ps & Pm & Pz & Rv).
    assert (Dp : dl_pos D = p) by (apply Hp; left; auto). rewrite Dp in *.
    destruct (moved_all cs (dl_z D - dl_size D) Hd) as (cs1 & Ec1 & S1).
    pose proof (sl_len _ _ S1) as L1.
    destruct (IH (fun D' H => Hp D' (or_intror H)) rest (S k) cs1 (snapshot_xyz b1) b') as (cs' & bm & S2 & M2 & Hh2 & O2 & G2 & V2 & C2).
    { eapply sl_all_down; eauto. }
    { cbn [snapshot_xyz b_muons]. rewrite M1. exact Ec1. }
    { cbn [snapshot_xyz b_hits]. rewrite L1. exact Hh1. }
    { exact E. }
    cbn [snapshot_xyz b_hits] in O2, G2, V2.
    assert (HH : hit_heights p (map LDet (D :: Ds)) = sort_down (map pn_z (dl_panels D)) ++ hit_heights p (map LDet Ds)).
    { unfold hit_heights. cbn [map flat_map]. rewrite Dp, String.eqb_refl. reflexivity. }
    exists cs', bm. split; [eapply sl_tr; eauto|]. split; [auto|]. split; [rewrite <- L1; auto|].
    split. { intros q v Hq. rewrite O2 by auto. apply Ro. auto. }
    split. { rewrite G2, Rg, <- app_assoc. f_equal. rewrite HH, map_app. f_equal. apply map_ext. intro z. apply sl_at_height; auto. }
    split. { intros v Hv. rewrite V2 by auto. destruct (Rv v Hv) as (ts & -> & F). rewrite HH, !app_length. apply Forall2_len in F.
      rewrite <- Pz, map_length, F. lia. }
    replace (k + len (D :: Ds))%nat with (S k + len Ds)%nat by (cbn; lia). exact C2.
Qed.

Lemma survivors_hits_ok (b b' : batch hrow) : hits_ok hrow (len (b_muons b)) (b_hits b) -> survivors b b' -> hits_ok hrow (len (b_muons b')) (b_hits b').
Proof.
  intros Hh (k & L & M & E). rewrite E. rewrite <- (map_length mp (b_muons b')), M, select_length by (rewrite map_length; auto).
  apply (hits_ok_select hrow k). rewrite L. auto.
Qed.

Lemma cross_passes Ps : (forall L, In L Ps -> passive_ok L) ->
  forall rest k (b b' : batch hrow), Forall sound (b_muons b) -> hits_ok hrow (len (b_muons b)) (b_hits b) ->
  cross (map LPass Ps ++ rest) k b = Some (Ok b') ->
  exists bm, Forall sound (b_muons bm) /\ hits_ok hrow (len (b_muons bm)) (b_hits bm) /\ survivors b bm
    /\ cross rest (k + len Ps) bm = Some (Ok b').
Proof.
  induction Ps as [|L Ps IH]; intros Hp rest k b b' Hs Hh E.
  - exists b. cbn in *. rewrite Nat.add_0_r. do 2 (split; [auto|]). split; [|auto]. replace b with (with_muons b (b_muons b)) at 2 by (destruct b; reflexivity).
    apply survivors_same; auto. apply hits_ok_aligned; auto.
  - cbn [map app cross_layers] in E. destruct (layer_forward L (vr_pass o k) (vr_fuel o k) b) as [[b1|]|] eqn:E1; try discriminate.
    destruct (Hp L (or_introl eq_refl)) as (P1 & P2 & P3).
    destruct (layer_exit _ _ _ _ _ P1 P2 P3 Hs (hits_ok_aligned _ _ Hh) E1) as [S1 V1].
    pose proof (survivors_hits_ok _ _ Hh V1) as Hh1.
    destruct (IH (fun L' H => Hp L' (or_intror H)) rest (S k) (snapshot_xyz b1) b') as (bm & S2 & Hh2 & V2 & C2); auto.
    { cbn. eapply Forall_impl; [|exact S1]. intros u [Hu _]; auto. }
    exists bm. do 2 (split; [auto|]). split; [|replace (k + len (L :: Ps))%nat with (S k + len Ps)%nat by (cbn; lia); exact C2].
    apply survivors_trans with (b := b1); auto. apply hits_ok_aligned; auto.
Qed.
End Cross.

(* the rows of the recorded positions *)
Lemma row_recorded {X I} (f : I -> X -> hrow) (d : hits_dict hrow) p v (xs : list X) zs i x :
  hits_ok hrow (len xs) d -> recorded p v d = map (fun z => map (f z) xs) zs -> zs <> [] -> nth_error xs i = Some x ->
  row_of (map_hits (tcols hrow (len xs)) d) p v i = map (fun z => f z x) zs.
Proof.
  intros Hh Er Hz Hx. unfold recorded in Er. destruct (assoc2 p v d) as [ts|] eqn:Ea; [|destruct zs; [congruence|discriminate]].
  unfold row_of. rewrite assoc2_map, Ea. destruct (hits_ok_assoc2 _ _ _ _ _ _ Hh Ea) as [_ Ht].
  assert (Hl : (i < len (tcols hrow (len xs) ts))%nat) by (rewrite tcols_length by auto; apply nth_error_Some; congruence).
  pose proof (nth_error_nth' _ [] Hl) as Hr. pose proof (tcols_rows _ _ Ht _ _ Hr) as F. revert F.
  generalize (nth i (tcols hrow (len xs) ts) []) as row. rewrite Er. clear - Hx.
  induction zs as [|z zs IH]; intros row F; cbn [map] in *; inversion F; subst; auto.
  f_equal; auto. match goal with H : nth_error (map _ xs) i = Some _ |- _ => rewrite nth_error_map, Hx in H; cbn [option_map] in H; congruence end.
Qed.
Lemma row_count (d : hits_dict hrow) p v n i : hits_ok hrow n d -> (i < n)%nat ->
  len (row_of (map_hits (tcols hrow n) d) p v i) = len (recorded p v d).
Proof.
  intros Hh Hi. unfold row_of, recorded. rewrite assoc2_map. destruct (assoc2 p v d) as [ts|] eqn:Ea; [|reflexivity].
  destruct (hits_ok_assoc2 _ _ _ _ _ _ Hh Ea) as [_ Ht]. eapply tcols_row_len; eauto. apply nth_In. rewrite tcols_length; auto.
Qed.
Lemma l3_inj l : forall l', map l3 l = map l3 l' -> l = l'.
Proof.
  induction l as [|[x y z] l IH]; intros [|[x' y' z'] l'] E; try discriminate; auto.
  cbn in E. injection E as -> -> -> E. f_equal. auto.
Qed.

Lemma sound_down c : sound (g_mu c) -> downwards c.
Proof. intros (x & y & z & p & th & ph & E & _ & T). unfold g_mu in E. injection E as _ _ _ _ E _. unfold downwards. rewrite E. auto. Qed.
Lemma heading_nonzero c : downwards c -> heading c <> (0, 0, 0).
Proof.
  intros D E. unfold heading, direction in E. injection E as _ _ E. unfold downwards in D.
  assert (0 < cos (g_th c)) by (pose proof PI_pos; apply cos_gt_0; lra). lra.
Qed.
Lemma heading_norm c : norm3 (heading c) = 1.
Proof.
  unfold norm3, heading, direction, dot3. rewrite <- sqrt_1. f_equal. pose proof (sin2_cos2 (g_th c)) as S1. pose proof (sin2_cos2 (g_ph c)) as S2. unfold Rsqr in *.
  transitivity (sin (g_th c) * sin (g_th c) * (sin (g_ph c) * sin (g_ph c) + cos (g_ph c) * cos (g_ph c)) + cos (g_th c) * cos (g_th c)); [ring|]. rewrite S2. lra.
Qed.
Lemma on_flight c z : downwards c -> exists s, mu3 (at_height c z) = fv (flight c s).
Proof.
  intro D. exists ((g_z c - z) / cos (g_th c)). unfold at_height, along, mu3, flight, on_line, place, heading, direction, dir, add3, scale3. reflexivity.
Qed.
Lemma line_scaled c s0 k s : on_line (flight c s0) (scale3 k (heading c)) s = flight c (s0 + k * s).
Proof.
  unfold flight, on_line. destruct (place c) as [[x y] z], (heading c) as [[a b] e]. unfold add3, scale3. f_equal; [f_equal|]; ring.
Qed.
Lemma scale_scale s k a : scale3 s (scale3 k a) = scale3 (s * k) a.
Proof. destruct a as [[x y] z]. unfold scale3. f_equal; [f_equal|]; ring. Qed.
Lemma np_scaled a b k l : k <> 0 -> l <> 0 -> not_parallel (scale3 k a) (scale3 l b) -> not_parallel a b.
Proof.
  intros K L N s t E. destruct (N (s / k) (t / l)) as [Z1 Z2].
  { rewrite !scale_scale. unfold Rdiv. rewrite !Rmult_assoc, !Rinv_l, !Rmult_1_r by auto. auto. }
  split; [apply (Rmult_eq_reg_l (/ k))|apply (Rmult_eq_reg_l (/ l))]; try (apply Rinv_neq_0_compat; auto); rewrite Rmult_0_r, Rmult_comm; auto.
Qed.

(* the two fits of the true hits of one muon *)
Lemma firstn_front {A} (l l' : list A) n : n = len l -> firstn n (l ++ l') = l.
Proof. intros ->. rewrite firstn_app, Nat.sub_diag, firstn_all, firstn_O, app_nil_r. auto. Qed.
Lemma skipn_front {A} (l l' : list A) n : n = len l -> skipn n (l ++ l') = l'.
Proof. intros ->. rewrite skipn_app, Nat.sub_diag, skipn_all. reflexivity. Qed.

Lemma true_pair lw zr c0 c1 m n t za0 za1 ra zb0 zb1 rb :
  downwards c0 -> downwards c1 -> za1 < za0 -> zb1 < zb0 ->
  mh_gen m = map (fun z => mu3 (at_height c0 z)) (za0 :: za1 :: ra) ++ map (fun z => mu3 (at_height c1 z)) (zb0 :: zb1 :: rb) ->
  n = len (za0 :: za1 :: ra) -> tracks1 true lw n m = Ok t ->
  exists k0 k1 s0 s1 p0 p1, t = (ftrack (scale3 k0 (heading c0)) (flight c0 s0), ftrack (scale3 k1 (heading c1)) (flight c1 s1))
    /\ 0 < k0 /\ 0 < k1 /\ th_in t = Fin (g_th c0) /\ th_out t = Fin (g_th c1) /\ ph_in t = Fin p0 /\ ph_out t = Fin p1
    /\ (0 < g_th c0 -> same_azimuth (Fin p0) (g_ph c0)) /\ (0 < g_th c1 -> same_azimuth (Fin p1) (g_ph c1))
    /\ xyz_in1 zr (fst t) = mu3 (at_height c0 (snd zr)) /\ xyz_out1 zr (snd t) = mu3 (at_height c1 (fst zr)).
Proof.
  intros D0 D1 La Lb Eg Ea Et.
  destruct (true_track lw zr c0 za0 za1 ra D0 La) as (t0 & p0 & T0 & A1 & A2 & A3 & _ & A5 & A6 & _ & A8 & k0 & K0 & V0).
  destruct (true_track lw zr c1 zb0 zb1 rb D1 Lb) as (t1 & p1 & T1 & B1 & B2 & B3 & _ & B5 & _ & B7 & B8 & k1 & K1 & V1).
  fold (heading c0) in V0. fold (heading c1) in V1.
  assert (t = (t0, t1)) as ->.
  { unfold tracks1, used_uncs in Et. rewrite Eg in Et. revert Ea Et T0 T1. generalize (za0 :: za1 :: ra) as za. generalize (zb0 :: zb1 :: rb) as zb. intros zb za Ea Et T0 T1.
    rewrite map_app, !map_map in Et. rewrite !firstn_front, !skipn_front in Et by (rewrite map_length; auto). rewrite T0, T1 in Et. cbn in Et. congruence. }
  destruct (on_flight c0 za0 D0) as (s0 & F0). destruct (on_flight c1 zb0 D1) as (s1 & F1). rewrite F0 in A5. rewrite F1 in B5.
  exists k0, k1, s0, s1, p0, p1. split. { destruct t0, t1; cbn in *; subst; reflexivity. }
  do 6 (split; [auto|]). split. { intro H. exists p0. split; [auto|]. split; auto. }
  split. { intro H. exists p1. split; [auto|]. split; auto. }
  split; auto.
Qed.

Lemma fv_inj a b : fv a = fv b -> a = b.
Proof. destruct a as [[? ?] ?], b as [[? ?] ?]. intro X; cbn in X; congruence. Qed.
Lemma z3_heading k c : z3 (scale3 k (heading c)) = - (k * cos (g_th c)).
Proof. unfold z3, scale3, heading, direction. cbn. ring. Qed.
Lemma steep_heading k c : 0 < k -> steep (scale3 k (heading c)) <-> sin (1 / 100000) < cos (g_th c).
Proof.
  intro K. unfold steep. rewrite norm3_scale, heading_norm, z3_heading by lra. split; intro H; nra.
Qed.
Lemma np_scale_up a b k l : k <> 0 -> l <> 0 -> not_parallel a b -> not_parallel (scale3 k a) (scale3 l b).
Proof.
  intros K L N s t E. rewrite !scale_scale in E. destruct (N _ _ E) as [Z1 Z2]. apply Rmult_integral in Z1. apply Rmult_integral in Z2. tauto.
Qed.
Lemma near_line lw c k s0 z : 0 < k ->
  (exists s, z3 (on_line (flight c s0) (scale3 k (heading c)) s) = z /\ near lw (on_line (flight c s0) (scale3 k (heading c)) s))
  <-> exists s, z3 (flight c s) = z /\ near lw (flight c s).
Proof.
  intro K. split.
  - intros (s & A & B). rewrite line_scaled in A, B. eauto.
  - intros (s & A & B). exists ((s - s0) / k). rewrite line_scaled. replace (s0 + k * ((s - s0) / k)) with s by (field; lra). auto.
Qed.
Lemma usable_clear lw zr m c0 c1 k0 k1 s0 s1 : 0 < k0 -> 0 < k1 ->
  usable lw zr (used_uncs true m) (ftrack (scale3 k0 (heading c0)) (flight c0 s0), ftrack (scale3 k1 (heading c1)) (flight c1 s1)) <-> clear lw zr c0 c1.
Proof.
  intros K0 K1. unfold usable, clear. split.
  - intros (v1 & q1 & v2 & q2 & E & S1 & S2 & NP & N1 & N2 & _).
    assert (E1 : scale3 k0 (heading c0) = v1) by (apply fv_inj, (f_equal (fun x => t_vec (fst x)) E)).
    assert (E2 : flight c0 s0 = q1) by (apply fv_inj, (f_equal (fun x => t_start (fst x)) E)).
    assert (E3 : scale3 k1 (heading c1) = v2) by (apply fv_inj, (f_equal (fun x => t_vec (snd x)) E)).
    assert (E4 : flight c1 s1 = q2) by (apply fv_inj, (f_equal (fun x => t_start (snd x)) E)). subst v1 q1 v2 q2.
    apply steep_heading in S1, S2; auto. apply near_line in N1, N2; auto. apply np_scaled in NP; auto; lra.
  - intros (S1 & S2 & NP & N1 & N2). do 4 eexists. split; [reflexivity|]. rewrite !steep_heading, !near_line by auto.
    do 2 (split; [auto|]). split; [apply np_scale_up; auto; lra|]. do 2 (split; [auto|]).
    intros u Hu. unfold used_uncs in Hu. apply in_map_iff in Hu as (x & <- & _). cbn [vx vy xlt]. split; destruct (Rltb_spec 1 10000000000); auto; lra.
Qed.

Lemma tells_of_tracks lw zr sb i c0 c1 m cf t za0 za1 ra zb0 zb1 rb :
  downwards c0 -> downwards c1 -> za1 < za0 -> zb1 < zb0 ->
  mh_gen m = map (fun z => mu3 (at_height c0 z)) (za0 :: za1 :: ra) ++ map (fun z => mu3 (at_height c1 z)) (zb0 :: zb1 :: rb) ->
  sb_above sb = len (za0 :: za1 :: ra) ->
  nth_error (sb_tracks sb) i = Some t -> nth_error (sb_coefs sb) i = Some cf ->
  tracks1 true lw (sb_above sb) m = Ok t -> coefs1 t = Ok cf -> usable lw zr (used_uncs true m) t ->
  tells zr sb i c0 c1.
Proof.
  intros D0 D1 La Lb Eg Ea Nt Nc Et Ec U.
  destruct (true_pair lw zr c0 c1 m _ t za0 za1 ra zb0 zb1 rb D0 D1 La Lb Eg Ea Et) as (k0 & k1 & s0 & s1 & p0 & p1 & Q & K0 & K1 & A1 & B1 & A2 & B2 & A3 & B3 & A6 & B7).
  assert (NP : not_parallel (heading c0) (heading c1)) by (rewrite Q in U; apply usable_clear in U; auto; apply U).
  pose proof (np_scale_up _ _ k0 k1 (Rgt_not_eq _ _ K0) (Rgt_not_eq _ _ K1) NP) as NPs.
  unfold tells, entry, value.
  assert (X : forall f : track * track -> list xr, nth_error (map f (sb_tracks sb)) i = Some (f t)) by (intro f; rewrite nth_error_map, Nt; reflexivity).
  rewrite !X, A1, B1, A2, B2, A6, B7.
  do 2 (split; [reflexivity|]). split; [eauto|]. split; [eauto|].
  do 2 (split; [reflexivity|]). rewrite Q in *. cbn [fst snd ftrack t_vec] in *. split.
  - destruct (total_angle (heading c0) (heading c1) (heading_nonzero _ D0) (heading_nonzero _ D1)) as (a & E & B & C).
    rewrite !heading_norm, !Rmult_1_l in C. exists a. rewrite total_scale by (auto; apply heading_nonzero; auto). rewrite E.
    split; [reflexivity|]. split; [|exact C]. split; [|lra]. destruct (Req_dec a 0) as [-> |Na]; [|lra]. exfalso.
    rewrite cos_0 in C. (* both unit vectors are equal *)
    destruct (NP 1 1) as [Z _]; [|lra].
    pose proof (heading_norm c0) as N0. pose proof (heading_norm c1) as N1.
    destruct (heading c0) as [[a1 a2] a3], (heading c1) as [[b1 b2] b3]. unfold norm3, dot3 in *.
    assert (S0 : a1 * a1 + a2 * a2 + a3 * a3 = 1) by (apply (f_equal (fun x => x * x)) in N0; rewrite sqrt_sqrt in N0; [lra|nra]).
    assert (S1 : b1 * b1 + b2 * b2 + b3 * b3 = 1) by (apply (f_equal (fun x => x * x)) in N1; rewrite sqrt_sqrt in N1; [lra|nra]).
    assert (Z : (a1 - b1) * (a1 - b1) + (a2 - b2) * (a2 - b2) + (a3 - b3) * (a3 - b3) = 0) by lra.
    assert (a1 = b1 /\ a2 = b2 /\ a3 = b3) as (-> & -> & ->).
    { pose proof (Rle_0_sqr (a1 - b1)). pose proof (Rle_0_sqr (a2 - b2)). pose proof (Rle_0_sqr (a3 - b3)). unfold Rsqr in *.
      split; [|split]; apply Rminus_diag_uniq, Rsqr_0_uniq; unfold Rsqr; lra. }
    reflexivity.
  - destruct (poca_spec _ (flight c0 s0) _ (flight c1 s1) NPs) as (c & s & u & E & P & M). rewrite E in *. injection Ec as ->.
    rewrite !line_scaled in P. exists (s0 + k0 * s), (s1 + k1 * u). split.
    + rewrite (map2_nth_err _ _ _ _ _ _ Nt Nc). rewrite P. reflexivity.
    + intros s' t'. specialize (M ((s' - s0) / k0) ((t' - s1) / k1)). rewrite !line_scaled in M.
      replace (s0 + k0 * ((s' - s0) / k0)) with s' in M by (field; lra). replace (s1 + k1 * ((t' - s1) / k1)) with t' in M by (field; lra). exact M.
Qed.

Lemma end_to_end argsort tr o V As Ps Bs cs V' b1 lw zr b2 sb za0 za1 ra zb0 zb1 rb :
  is_argsort argsort -> v_layers V = map LDet As ++ map LPass Ps ++ map LDet Bs ->
  (forall D, In D As -> dl_pos D = "above") -> (forall D, In D Bs -> dl_pos D = "below") -> (forall L, In L Ps -> passive_ok L) ->
  hit_heights "above" (v_layers V) = za0 :: za1 :: ra -> za1 < za0 ->
  hit_heights "below" (v_layers V) = zb0 :: zb1 :: rb -> zb1 < zb0 ->
  (forall c, In c cs -> sound (g_mu c)) ->
  volume_forward argsort tr o V (Batch (map g_mu cs) None [] []) = Some (Ok (V', b1)) ->
  scatter_batch true lw zr b1 = Ok (b2, sb) ->
  exists left outs keep,
    len left = len cs /\ len outs = len (select left cs) /\ b_muons b1 = map g_mu outs
    /\ (forall i c0 c1, nth_error (select left cs) i = Some c0 -> nth_error outs i = Some c1 ->
         downwards c1 /\ g_p c1 = g_p c0 /\ exists k, nth_error keep i = Some k /\ (k = true <-> clear lw zr c0 c1))
    /\ len keep = len outs /\ b_muons b2 = map g_mu (select keep outs) /\ len (sb_tracks sb) = len (select keep outs)
    /\ forall i c0 c1, nth_error (select keep (select left cs)) i = Some c0 -> nth_error (select keep outs) i = Some c1 -> tells zr sb i c0 c1.
Proof.
  intros Ha EV HA HB HP ZA LA ZB LB Hs EF ES. unfold volume_forward in EF.
  destruct (assign_budget argsort V) as [V1|] eqn:E1; [|discriminate]. apply assign_same in E1.
  destruct (cross_layers _ _ _ _ _ _) as [[bc|]|] eqn:E2; try discriminate. injection EF as <- <-.
  (* the layers with a budget *)
  assert (exists As' Bs', v_layers V1 = map LDet As' ++ map LPass Ps ++ map LDet Bs' /\ (forall D, In D As' -> dl_pos D = "above") /\ (forall D, In D Bs' -> dl_pos D = "below"))
    as (As' & Bs' & EV' & HA' & HB').
  { assert (K : forall p Ds ls, (forall D, In D Ds -> dl_pos D = p) -> Forall2 same_layer (map LDet Ds) ls ->
        exists Ds', ls = map LDet Ds' /\ forall D, In D Ds' -> dl_pos D = p).
    { intros p Ds. induction Ds as [|D Ds IH]; intros ls Hp F; inversion F; subst.
      - exists []. split; [reflexivity|intros ? []].
      - destruct (IH l') as (Ds' & -> & Hp'); auto. { intros; apply Hp; right; auto. }
        destruct y as [L|D']; [contradiction|]. exists (D' :: Ds'). split; [reflexivity|]. intros D0 [<-|H]; auto.
        match goal with H : same_layer _ _ |- _ => destruct H as (ps & -> & _) end. cbn. apply Hp; left; auto. }
    assert (K2 : forall ls, Forall2 same_layer (map LPass Ps) ls -> ls = map LPass Ps).
    { clear. induction Ps as [|L Ps IH]; intros ls F; inversion F; subst; cbn; auto. f_equal; auto. destruct y as [L'|]; [|contradiction].
      match goal with H : same_layer _ _ |- _ => cbn in H; subst; reflexivity end. }
    rewrite EV in E1. apply Forall2_app_inv_l in E1 as (la & lr & FA & E1 & ->). apply Forall2_app_inv_l in E1 as (lp & lb & FP & FB & ->).
    apply K2 in FP as ->. destruct (K _ _ _ HA FA) as (As' & -> & ?). destruct (K _ _ _ HB FB) as (Bs' & -> & ?). exists As', Bs'. auto. }
  pose proof (same_layer_heights "above" _ _ E1) as HHa. pose proof (same_layer_heights "below" _ _ E1) as HHb.
  rewrite ZA in HHa. rewrite ZB in HHb. rewrite EV' in E2, HHa, HHb.
  assert (Hnone : forall p q Ds, (forall D, In D Ds -> dl_pos D = p) -> p <> q -> hit_heights q (map LDet Ds) = []).
  { intros p q Ds Hp Hq. unfold hit_heights. induction Ds as [|D Ds IH]; [reflexivity|]. cbn [map flat_map]. rewrite IH by (intros; apply Hp; right; auto).
    rewrite (Hp D (or_introl eq_refl)). destruct (String.eqb_spec p q); [congruence|reflexivity]. }
  assert (Hpass : forall q Ps, hit_heights q (map LPass Ps) = []).
  { intros q Qs. unfold hit_heights. induction Qs; auto. }
  assert (Happ : forall q l l', hit_heights q (l ++ l') = hit_heights q l ++ hit_heights q l') by (intros; unfold hit_heights; apply flat_map_app).
  rewrite !Happ, Hpass in HHa, HHb. cbn [app] in HHa, HHb.
  rewrite (Hnone "below" "above" Bs' HB') in HHa by discriminate. rewrite (Hnone "above" "below" As' HA') in HHb by discriminate.
  rewrite app_nil_r in HHa. cbn [app] in HHb.
  (* downwards through the detectors above, the passive layers and the detectors below *)
  assert (Hd : forall c, In c cs -> downwards c) by (intros; apply sound_down; auto).
  destruct (cross_dets argsort tr o Ha "above" As' HA' _ 0 cs (Batch (map g_mu cs) None [] []) bc Hd eq_refl ltac:(constructor) E2)
    as (ca & ba & Sa & Ma & Hha & Oa & Ga & Va & Ca).
  assert (Sn : Forall sound (b_muons ba)).
  { rewrite Ma. clear - Sa Hs. induction Sa as [|c c' cs ca (S1 & S2 & S3 & S4) _ IH]; cbn [map]; constructor.
    - assert (Hc : sound (g_mu c)) by (apply Hs; left; auto). destruct Hc as (x & y & z & p & th & ph & E & P & T). unfold g_mu in E. injection E as _ _ _ Ep Et Eh.
      exists (g_x c'), (g_y c'), (g_z c'), p, th, ph. unfold g_mu. rewrite S1, S2, S3, Ep, Et, Eh. auto.
    - apply IH. intros; apply Hs; right; auto. }
  assert (Lca : len (b_muons ba) = len cs) by (rewrite Ma, map_length; apply sl_len; auto).
  destruct (cross_passes argsort tr o Ps HP (map LDet Bs') (0 + len As') ba bc Sn ltac:(rewrite Lca; auto) Ca) as (bp & Sp & Hhp & (k1 & Lk1 & Mk1 & Hk1) & Cp).
  destruct (sound_cases _ Sp) as (cp & Mp & Dp).
  rewrite Mp, map_length in Hhp. rewrite <- (app_nil_r (map LDet Bs')) in Cp.
  destruct (cross_dets argsort tr o Ha "below" Bs' HB' [] (0 + len As' + len Ps) cp bp bc Dp Mp Hhp Cp) as (cb & bb & Sb & Mb & Hhb & Ob & Gb & Vb & Cb).
  cbn [cross_layers] in Cb. injection Cb as ->. rename bc into b1.
  pose proof (sl_len _ _ Sb) as Lcb.
  assert (Lb1 : len (b_muons b1) = len cp) by (rewrite Mb, map_length; auto).
  destruct (kept_muons true lw zr b1 b2 sb ltac:(rewrite Lb1; auto) ES) as (na & hs & ts & k2 & d & Rt & Lhs & Lts & Lk2 & Us & M2 & H2 & _ & _ & Gd & Lh2 & Lt2 & Lc2 & Each).
  rewrite Lca in Lk1.
  assert (Lcp : len cp = count_true k1).
  { rewrite <- (map_length g_mu cp), <- Mp, <- (map_length mp (b_muons bp)), Mk1, select_length; auto. rewrite map_length. lia. }
  assert (Lcs : len (select k1 cs) = count_true k1) by (apply select_length; lia).
  (* what was recorded *)
  assert (RA : recorded "above" "gen_xyz" (b_hits b1) = map (fun z => map (fun c => xyz (at_height c z)) (select k1 cs)) (za0 :: za1 :: ra)).
  { rewrite Ob, Hk1, recorded_keep, Ga by discriminate. change (recorded "above" "gen_xyz" (b_hits (Batch (map g_mu cs) None [] []))) with (@nil (list hrow)).
    rewrite app_nil_l, HHa, !map_map. apply map_ext. intro z. apply select_map. }
  assert (RB : recorded "below" "gen_xyz" (b_hits b1) = map (fun z => map (fun c => xyz (at_height c z)) cb) (zb0 :: zb1 :: rb)).
  { rewrite Gb, Hk1, recorded_keep, Oa by discriminate. change (recorded "below" "gen_xyz" (b_hits (Batch (map g_mu cs) None [] []))) with (@nil (list hrow)).
    change (map (select k1) (@nil (list hrow))) with (@nil (list hrow)). rewrite app_nil_l, HHb. apply map_ext. intro z. symmetry. apply sl_at_height; auto. }
  assert (RC : len (recorded "above" "reco_xyz" (b_hits b1)) = len (za0 :: za1 :: ra)).
  { rewrite Ob, Hk1, recorded_keep, map_length, Va by (discriminate || (cbn; auto)). rewrite HHa. reflexivity. }
  assert (Dout : forall c, In c cb -> downwards c) by (eapply sl_all_down; eauto).
  assert (Din : forall c, In c (select k1 cs) -> downwards c) by (intros c Hc; apply Hd; eapply in_select; eauto).
  (* the hits of a muon, before and after the selection *)
  assert (Gen : forall (b : batch hrow) ins outs, hits_ok hrow (len outs) (b_hits b) -> len ins = len outs ->
      recorded "above" "gen_xyz" (b_hits b) = map (fun z => map (fun c => xyz (at_height c z)) ins) (za0 :: za1 :: ra) ->
      recorded "below" "gen_xyz" (b_hits b) = map (fun z => map (fun c => xyz (at_height c z)) outs) (zb0 :: zb1 :: rb) ->
      forall i m c0 c1, hits_of_muon (map_hits (tcols hrow (len outs)) (b_hits b)) i m -> nth_error ins i = Some c0 -> nth_error outs i = Some c1 ->
      mh_gen m = map (fun z => mu3 (at_height c0 z)) (za0 :: za1 :: ra) ++ map (fun z => mu3 (at_height c1 z)) (zb0 :: zb1 :: rb)).
  { intros b ins outs Hb Ll Ra Rb i m c0 c1 (_ & Gm & _) N0 N1. apply l3_inj. rewrite Gm, map_app, !map_map. f_equal.
    - rewrite <- Ll. apply (row_recorded (fun z c => xyz (at_height c z))); [rewrite Ll; auto|exact Ra|discriminate|exact N0].
    - apply (row_recorded (fun z c => xyz (at_height c z))); [auto|exact Rb|discriminate|exact N1]. }
  exists k1, cb, k2.
  split; [auto|]. split; [lia|]. split; [auto|].
  assert (Hk2 : len k2 = len cb) by lia.
  assert (Hhcb : hits_ok hrow (len cb) (b_hits b1)) by (rewrite Lcb; auto).
  split.
  { intros i c0 c1 N0 N1. assert (Dc0 : downwards c0) by (apply Din; eapply nth_error_In; eauto).
    assert (Dc1 : downwards c1) by (apply Dout; eapply nth_error_In; eauto).
    assert (Il : (i < len cb)%nat) by (apply nth_error_Some; congruence).
    split; [exact Dc1|]. split.
    - assert (Es : map g_p cb = map g_p (select k1 cs)).
      { rewrite <- select_map. transitivity (map mp (b_muons bp)).
        - rewrite Mp, map_map. cbn [g_mu mp]. clear - Sb. induction Sb as [|c c' l l' (_ & _ & S & _) _ IH]; cbn [map]; congruence.
        - rewrite Mk1. f_equal. rewrite Ma, map_map. cbn [g_mu mp]. clear - Sa. induction Sa as [|c c' l l' (_ & _ & S & _) _ IH]; cbn [map]; congruence. }
      assert (X : nth_error (map g_p cb) i = nth_error (map g_p (select k1 cs)) i) by congruence.
      rewrite !nth_error_map, N0, N1 in X. cbn in X. congruence.
    - destruct (nth_error k2 i) as [k|] eqn:Nk; [|apply nth_error_None in Nk; lia]. exists k. split; [reflexivity|].
      destruct (nth_error hs i) as [m|] eqn:Nm; [|apply nth_error_None in Nm; lia]. destruct (nth_error ts i) as [t|] eqn:Nt; [|apply nth_error_None in Nt; lia].
      assert (HhL : hits_ok hrow (len (b_muons b1)) (b_hits b1)) by (rewrite Lb1; auto).
      destruct (read_tracks_inv _ _ _ _ _ _ _ HhL Rt) as (Hne & Ex & Et & _ & _).
      apply mapM_inv2 in Et. destruct (Forall2_nth _ _ _ Et _ _ Nm) as (t' & Ht' & Hx). assert (t' = t) as -> by congruence.
      rewrite Lb1, <- Lcb in Ex.
      pose proof (Gen b1 (select k1 cs) cb Hhcb ltac:(lia) RA RB i m c0 c1 (extract_rows _ _ _ _ _ Ex Nm) N0 N1) as G.
      assert (Ena : na = len (za0 :: za1 :: ra)).
      { rewrite (extract_above _ (len cb) _ _ _ _ (assoc2_tcols_rect _ _ Hhcb) Ex Nm), row_count by auto. exact RC. }
      destruct (true_pair lw zr c0 c1 m na t za0 za1 ra zb0 zb1 rb Dc0 Dc1 LA LB G Ena Hx) as (q0 & q1 & s0 & s1 & p0 & p1 & Q & K0 & K1 & _).
      specialize (Us i m t Nm Nt). rewrite Nk, Q in Us. rewrite (usable_clear lw zr m c0 c1 q0 q1 s0 s1 K0 K1) in Us. rewrite <- Us. split; congruence. }
  assert (Lout : len (select k2 cb) = count_true k2) by (apply select_length; lia).
  assert (Lin : len (select k2 (select k1 cs)) = count_true k2) by (apply select_length; lia).
  assert (M2' : b_muons b2 = map g_mu (select k2 cb)) by (rewrite M2, Mb, select_map; auto).
  split; [auto|]. split; [auto|]. split; [rewrite Lt2, M2', map_length; auto|].
  assert (Hh2 : hits_ok hrow (len (select k2 cb)) (b_hits b2)).
  { rewrite Lout, H2. apply (hits_ok_select hrow k2). rewrite Hk2, Lcb. auto. }
  assert (RA2 : recorded "above" "gen_xyz" (b_hits b2) = map (fun z => map (fun c => xyz (at_height c z)) (select k2 (select k1 cs))) (za0 :: za1 :: ra)).
  { rewrite H2, recorded_keep, RA, map_map. apply map_ext. intro z. apply select_map. }
  assert (RB2 : recorded "below" "gen_xyz" (b_hits b2) = map (fun z => map (fun c => xyz (at_height c z)) (select k2 cb)) (zb0 :: zb1 :: rb)).
  { rewrite H2, recorded_keep, RB, map_map. apply map_ext. intro z. apply select_map. }
  assert (Ed : d = map_hits (tcols hrow (len (select k2 cb))) (b_hits b2)).
  { rewrite (get_hits_all b2 _ Hh2) in Gd; [congruence|]. intro X. rewrite X in RA2. discriminate RA2. }
  intros i c0 c1 N0 N1.
  assert (I2 : (i < len (select k2 cb))%nat) by (apply nth_error_Some; congruence).
  assert (Lm : len (b_muons b2) = len (select k2 cb)) by (rewrite M2', map_length; auto).
  destruct (nth_error (sb_hits sb) i) as [m|] eqn:Nm; [|apply nth_error_None in Nm; lia].
  destruct (nth_error (sb_tracks sb) i) as [t|] eqn:Nt; [|apply nth_error_None in Nt; lia].
  destruct (nth_error (sb_coefs sb) i) as [cf|] eqn:Nc; [|apply nth_error_None in Nc; lia].
  destruct (Each i m t cf Nm Nt Nc) as (Hm & Ab & Et & U & Ec & _). rewrite Ed in Hm, Ab.
  assert (Dc0 : downwards c0) by (apply Din; eapply in_select, nth_error_In; eauto).
  assert (Dc1 : downwards c1) by (apply Dout; eapply in_select, nth_error_In; eauto).
  apply (tells_of_tracks lw zr sb i c0 c1 m cf t za0 za1 ra zb0 zb1 rb); auto.
  - apply (Gen b2 (select k2 (select k1 cs)) (select k2 cb) Hh2 ltac:(lia) RA2 RB2 i m c0 c1 Hm N0 N1).
  - rewrite Ab, row_count by auto. rewrite H2, recorded_keep, map_length. exact RC.
Qed.
