(* From the muons to the scatter batch of their recorded hits, when there is no noise: C105. *)
From Coq Require Import Psatz Permutation.
From Verif Require Import Base.Trig Base.Masks Model.Volume Model.Scatter Spec.ListSpec Spec.MuonSpec Spec.AngleSpec Spec.LayerSpec Spec.VolumeSpec Spec.ScatterSpec Spec.EndToEndSpec.
From Verif Require Import Proofs.MuonBatchP Proofs.MuonConserve Proofs.MuonAngles Proofs.LayerP Proofs.LayerCross Proofs.PanelP Proofs.ScatterGeo Proofs.TrackFit Proofs.ScatterKeep Proofs.ScatterBatchP Proofs.TrueTrack Proofs.EndToEnd.
Open Scope R_scope.
Open Scope string_scope.
Open Scope list_scope.

(* the rows of a hit without noise *)
Definition quad (tr : bool) (P : panel) (c : go_case) : hrow * hrow * hrow * hrow :=
  match hit1 P tr (0, 0) (mx (at_height c (pn_z P))) (my (at_height c (pn_z P))) with Ok q => q | Err _ => ([], [], [], []) end.
Definition qrow (tr : bool) (v : string) (P : panel) (c : go_case) : hrow :=
  match assoc v [("reco_xyz", q_reco (quad tr P c)); ("gen_xyz", q_gen (quad tr P c)); ("unc_xyz", q_unc (quad tr P c)); ("eff", q_eff (quad tr P c))] with Some r => r | None => [] end.
Lemma qrow_line tr v P c c' : same_line c c' -> qrow tr v P c' = qrow tr v P c.
Proof. intros (_ & _ & _ & S). unfold qrow, quad. rewrite S. reflexivity. Qed.
Lemma qrows_line tr v P cs cs' : Forall2 same_line cs cs' -> map (qrow tr v P) cs' = map (qrow tr v P) cs.
Proof. induction 1 as [|c c' cs cs' S _ IH]; cbn [map]; [auto|]. rewrite IH, (qrow_line _ _ _ _ _ S). auto. Qed.

Lemma list_ext {A} : forall (l l' : list A), len l = len l' -> (forall i x, nth_error l i = Some x -> nth_error l' i = Some x) -> l = l'.
Proof.
  induction l as [|a l IH]; intros [|b l'] L H; try discriminate; auto. f_equal.
  - specialize (H 0%nat a eq_refl). cbn in H. congruence.
  - apply IH; [now injection L|]. intros i x Hx. exact (H (S i) x Hx).
Qed.

Section Quiet.
Variables (argsort : list R -> list nat) (tr : bool) (o : vol_rng).
Hypothesis Ha : is_argsort argsort.
Hypothesis Quiet : forall k j i, vr_det o k j i = (0, 0).
Notation cross := (cross_layers argsort tr o).

Lemma cross_quiet p Ds : (forall D, In D Ds -> dl_pos D = p) ->
  forall rest k cs (b b' : batch hrow), (forall c, In c cs -> downwards c) -> b_muons b = map g_mu cs -> hits_ok hrow (len cs) (b_hits b) ->
  cross (map LDet Ds ++ rest) k b = Some (Ok b') ->
  exists cs' bm Pl, Forall2 same_line cs cs' /\ b_muons bm = map g_mu cs' /\ hits_ok hrow (len cs) (b_hits bm)
    /\ (forall q v, q <> p -> recorded q v (b_hits bm) = recorded q v (b_hits b))
    /\ map pn_z Pl = hit_heights p (map LDet Ds)
    /\ (forall P, In P Pl <-> exists D, In D Ds /\ In P (dl_panels D))
    /\ (forall v, In v hit_variables -> recorded p v (b_hits bm) = recorded p v (b_hits b) ++ map (fun P => map (qrow tr v P) cs) Pl)
    /\ cross rest (k + len Ds) bm = Some (Ok b').
Proof.
  induction Ds as [|D Ds IH]; intros Hp rest k cs b b' Hd Em Hh E.
  - exists cs, b, []. cbn in *. rewrite Nat.add_0_r. split; [apply sl_refls|]. do 4 (split; [auto|]). split; [|split; [intros; now rewrite app_nil_r|auto]].
    intros P. split; [intros []|intros (D & [] & _)].
  - cbn [map app cross_layers] in E. destruct (det_forward argsort D tr (vr_det o k) b) as [b1|] eqn:E1; [|discriminate].
    destruct (det_forward_spec _ _ _ _ cs _ _ Ha Hd Em Hh E1) as (M1 & _ & _ & Hh1 & Ro & Rg & ps & Pm & Pz & Rv).
    assert (Dp : dl_pos D = p) by (apply Hp; left; auto). rewrite Dp in *.
    destruct (moved_all cs (dl_z D - dl_size D) Hd) as (cs1 & Ec1 & S1).
    pose proof (sl_len _ _ S1) as L1.
    destruct (IH (fun D' H => Hp D' (or_intror H)) rest (S k) cs1 (snapshot_xyz b1) b') as (cs' & bm & Pl & S2 & M2 & Hh2 & O2 & Z2 & I2 & V2 & C2).
    { eapply sl_all_down; eauto. }
    { cbn [snapshot_xyz b_muons]. rewrite M1. exact Ec1. }
    { cbn [snapshot_xyz b_hits]. rewrite L1. exact Hh1. }
    { exact E. }
    cbn [snapshot_xyz b_hits] in O2, V2.
    assert (HH : hit_heights p (map LDet (D :: Ds)) = sort_down (map pn_z (dl_panels D)) ++ hit_heights p (map LDet Ds)).
    { unfold hit_heights. cbn [map flat_map]. rewrite Dp, String.eqb_refl. reflexivity. }
    exists cs', bm, (ps ++ Pl). split; [eapply sl_tr; eauto|]. split; [auto|]. split; [rewrite <- L1; auto|].
    split. { intros q v Hq. rewrite O2 by auto. apply Ro. auto. }
    split. { rewrite map_app, Pz, Z2, HH. reflexivity. }
    split. { intros P. rewrite in_app_iff, I2. split.
      - intros [Hin|(D' & A & B)]; [exists D|exists D'; split; [right|]; auto]. split; [left; auto|]. eapply Permutation_in; eauto.
      - intros (D' & [<-|A] & B); [left|right; exists D'; auto]. eapply Permutation_in; [symmetry|]; eauto. }
    split. { intros v Hv. rewrite V2 by auto. destruct (Rv v Hv) as (ts & -> & F). rewrite <- app_assoc. f_equal. rewrite map_app. f_equal.
      - clear - F Quiet Hv. induction F as [|t P ts ps0 (Lt & j & _ & Hq) _ IH]; [reflexivity|]. cbn [map]. f_equal; [|exact IH].
        apply list_ext; [now rewrite map_length|]. intros i x Hx. rewrite nth_error_map.
        destruct (nth_error cs i) as [c|] eqn:Ec; [|exfalso; apply nth_error_None in Ec; assert (i < len t)%nat by (apply nth_error_Some; congruence); lia].
        destruct (Hq i c Ec) as (q & Q1 & Q2). rewrite Quiet in Q1. cbn [option_map]. f_equal. unfold qrow, quad. rewrite Q1.
        rewrite Hx in Q2. now rewrite Q2.
      - apply map_ext. intros P. apply qrows_line. exact S1. }
    replace (k + len (D :: Ds))%nat with (S k + len Ds)%nat by (cbn; lia). exact C2.
Qed.
End Quiet.

(* ---------- one panel ---------- *)
Definition px (c : go_case) (z : R) : R := (g_x c + g_z c * (tan (g_th c) * cos (g_ph c))) + (- (tan (g_th c) * cos (g_ph c))) * z.
Definition py (c : go_case) (z : R) : R := (g_y c + g_z c * (tan (g_th c) * sin (g_ph c))) + (- (tan (g_th c) * sin (g_ph c))) * z.
Lemma at_line c z : downwards c -> mu3 (at_height c z) = V3 (Fin (px c z)) (Fin (py c z)) (Fin z).
Proof. intro D. apply at_height_line. unfold downwards in D. apply cos_gt_0; lra. Qed.
Definition covers (P : panel) (x y : R) : Prop :=
  pn_x P - span_x P / 2 <= x < pn_x P + span_x P / 2 /\ pn_y P - span_y P / 2 <= y < pn_y P + span_y P / 2.
Lemma covers_dec P x y : {covers P x y} + {~ covers P x y}.
Proof.
  unfold covers. destruct (Rle_dec (pn_x P - span_x P / 2) x), (Rlt_dec x (pn_x P + span_x P / 2)), (Rle_dec (pn_y P - span_y P / 2) y), (Rlt_dec y (pn_y P + span_y P / 2)); (left; lra) || (right; lra).
Defined.
Lemma through_covers P c : downwards c -> (through P c <-> covers P (px c (pn_z P)) (py c (pn_z P))).
Proof.
  intro D. assert (C : 0 < cos (g_th c)) by (unfold downwards in D; apply cos_gt_0; lra). unfold through. split.
  - intros (s & x & y & E & B). unfold flight, on_line, place, heading, direction, add3, scale3 in E. injection E as E1 E2 E3.
    assert (x = px c (pn_z P)) as ->. { rewrite <- E3, <- E1. unfold px, tan. field. lra. }
    assert (y = py c (pn_z P)) as ->. { rewrite <- E3, <- E2. unfold py, tan. field. lra. }
    exact B.
  - intro B. destruct (on_flight c (pn_z P) D) as (s & E). rewrite at_line in E by auto. exists s, (px c (pn_z P)), (py c (pn_z P)). split; [|exact B].
    apply fv_inj. rewrite <- E. reflexivity.
Qed.

Definition good (P : panel) : Prop := pn_real P = true /\ 1 / 10000000000 < pn_res P /\ 1 / 1000000000000 < pn_eff P.
Lemma hit_seen P x y : good P -> covers P x y ->
  hit1 P false (0, 0) (Fin x) (Fin y) = Ok ([Fin x; Fin y; Fin (pn_z P)], [Fin x; Fin y; Fin (pn_z P)], [Fin (1 / pn_res P); Fin (1 / pn_res P); Fin 0], [Fin (pn_eff P)]).
Proof.
  intros (Hr & Hs & He) (Bx & By). unfold hit1, in_xy. cbn [mx my fst snd xle xlt].
  destruct (Rleb_spec (pn_x P - span_x P / 2) x); [|exfalso; lra]. destruct (Rltb_spec x (pn_x P + span_x P / 2)); [|exfalso; lra].
  destruct (Rleb_spec (pn_y P - span_y P / 2) y); [|exfalso; lra]. destruct (Rltb_spec y (pn_y P + span_y P / 2)); [|exfalso; lra].
  unfold get_resolution1, get_efficiency1. rewrite Hr. cbn [orb negb andb bind fst snd]. rewrite !xdiv_fin by lra.
  assert (K : forall a b s, 0 <= a + - (b - s / 2) < s -> xadd (Fin (b - s / 2)) (xclamp 0 s (xadd (xsub (Fin a) (Fin (b - s / 2))) (Fin (0 / pn_res P)))) = Fin a).
  { intros a b s B. unfold xsub; cbn [xadd xopp]. replace (a + - (b - s / 2) + 0 / pn_res P) with (a + - (b - s / 2)) by (field; lra).
    unfold xclamp, Rclamp. cbn [xadd]. rewrite ?Rmax_left, ?Rmax_right, ?Rmin_left, ?Rmin_right by (try lra; try (apply Rmin_glb; lra); try (apply Rmax_lub; lra)). f_equal. lra. }
  rewrite !K by lra. reflexivity.
Qed.
Lemma hit_missed P x y : good P -> ~ covers P x y ->
  exists r g e, hit1 P false (0, 0) (Fin x) (Fin y) = Ok (r, g, [PInf; PInf; Fin 0], e).
Proof.
  intros (Hr & Hs & He) N. unfold hit1.
  assert (I : in_xy (Some (Fin (pn_x P - span_x P / 2), Fin (pn_y P - span_y P / 2))) (Some (Fin (pn_x P + span_x P / 2), Fin (pn_y P + span_y P / 2))) (Mu (Fin x) (Fin y) NaN NaN NaN NaN) = false).
  { unfold in_xy. cbn [mx my fst snd xle xlt].
    destruct (Rleb_spec (pn_x P - span_x P / 2) x), (Rltb_spec x (pn_x P + span_x P / 2)), (Rleb_spec (pn_y P - span_y P / 2) y), (Rltb_spec y (pn_y P + span_y P / 2)); try reflexivity.
    exfalso. apply N. unfold covers. lra. }
  rewrite I. unfold get_resolution1, get_efficiency1. rewrite Hr. cbn [orb negb andb bind fst snd].
  assert (Z : xdiv (Fin 1) (Fin 0) = PInf).
  { unfold xdiv. destruct (Req_EM_T 0 0); [|lra]. destruct (Req_EM_T 1 0); [lra|]. unfold inf_of_sign. destruct (Rlt_dec 0 1); [reflexivity|lra]. }
  rewrite Z. do 3 eexists. reflexivity.
Qed.

(* ---------- the fits ---------- *)
Lemma line_fit {X} lw c (z s : X -> R) (uz : X -> xr) x0 x1 rest : downwards c -> z x1 < z x0 ->
  (forall x, In x (x0 :: x1 :: rest) -> 0 < s x < 2 ^ 75) ->
  trajectory lw (map (fun x => mu3 (at_height c (z x))) (x0 :: x1 :: rest)) (map (fun x => V3 (Fin (s x)) (Fin (s x)) (uz x)) (x0 :: x1 :: rest))
  = Ok (track_on (g_x c + g_z c * (tan (g_th c) * cos (g_ph c))) (- (tan (g_th c) * cos (g_ph c)))
                 (g_y c + g_z c * (tan (g_th c) * sin (g_ph c))) (- (tan (g_th c) * sin (g_ph c))) (z x0) (z x1)).
Proof.
  intros D L Hs.
  set (h x := Hit (Fin (px c (z x))) (Fin (py c (z x))) (z x) (Fin (s x)) (Fin (s x)) (uz x)).
  assert (U : forall l, (forall x, In x l -> 0 < s x < 2 ^ 75) -> used_x (map h l) = map (fun x => (px c (z x), z x, s x)) l /\ used_y (map h l) = map (fun x => (py c (z x), z x, s x)) l).
  { unfold used_x, used_y. induction l as [|x l IH]; intro Hl; [split; reflexivity|]. destruct IH as [I1 I2]; [intros; apply Hl; right; auto|]. cbn [map flat_map]. rewrite I1, I2.
    unfold h at 1 2 3 4 5 6. cbn [h_x h_y h_z u_x u_y used1]. specialize (Hl x (or_introl eq_refl)). destruct (Rlt_dec (s x) (2 ^ 75)); [split; reflexivity|lra]. }
  destruct (U _ Hs) as [Ux Uy].
  assert (E : trajectory lw (map hit_xyz (map h (x0 :: x1 :: rest))) (map hit_unc (map h (x0 :: x1 :: rest)))
     = Ok (track_on (g_x c + g_z c * (tan (g_th c) * cos (g_ph c))) (- (tan (g_th c) * cos (g_ph c))) (g_y c + g_z c * (tan (g_th c) * sin (g_ph c))) (- (tan (g_th c) * sin (g_ph c))) (z x0) (z x1))).
  { cbn [map] in Ux, Uy |- *. apply (fit_exact lw (h x0) (h x1) (map h rest)).
    - intros k Hk. assert (exists x, k = h x /\ In x (x0 :: x1 :: rest)) as (x & -> & Hx).
      { destruct Hk as [<-|[<-|Hin]]; [exists x0|exists x1|]; cbn; auto. apply in_map_iff in Hin as (x & <- & Hx). exists x. auto. }
      specialize (Hs x Hx). unfold h; cbn. split; (split; [discriminate|]); right; exists (s x); (split; [reflexivity|]); (split; [lra|]); right; eauto.
    - rewrite Ux. do 2 eexists. split; [left; reflexivity|]. split; [right; left; reflexivity|]. cbn. lra.
    - rewrite Uy. do 2 eexists. split; [left; reflexivity|]. split; [right; left; reflexivity|]. cbn. lra.
    - rewrite Ux. change (forall x z' s', In (x, z', s') (map (fun x => (px c (z x), z x, s x)) (x0 :: x1 :: rest)) -> x = g_x c + g_z c * (tan (g_th c) * cos (g_ph c)) + - (tan (g_th c) * cos (g_ph c)) * z').
      intros x z' s' Hin. apply in_map_iff in Hin as (x' & Hz & _). injection Hz as <- <- <-. reflexivity.
    - rewrite Uy. change (forall x z' s', In (x, z', s') (map (fun x => (py c (z x), z x, s x)) (x0 :: x1 :: rest)) -> x = g_y c + g_z c * (tan (g_th c) * sin (g_ph c)) + - (tan (g_th c) * sin (g_ph c)) * z').
      intros x z' s' Hin. apply in_map_iff in Hin as (x' & Hz & _). injection Hz as <- <- <-. reflexivity. }
  rewrite <- E. rewrite !map_map. f_equal. apply map_ext. intro x. rewrite at_line by auto. reflexivity.
Qed.

Definition hit_of_panel (c0 c1 : go_case) (Pa Pb : list panel) : list (panel * go_case) := map (fun P => (P, c0)) Pa ++ map (fun P => (P, c1)) Pb.
Lemma hop_map {B} (f : panel -> go_case -> B) c0 c1 Pa Pb : map (fun pc => f (fst pc) (snd pc)) (hit_of_panel c0 c1 Pa Pb) = map (fun P => f P c0) Pa ++ map (fun P => f P c1) Pb.
Proof. unfold hit_of_panel. rewrite map_app, !map_map. reflexivity. Qed.

(* the hits of a muon as recorded by the panels Pa above and Pb below *)
Definition rec_hits (m : mhits) (c0 c1 : go_case) (Pa Pb : list panel) : Prop :=
  forall v, In v hit_variables ->
    match v with "reco_xyz" => map l3 (mh_reco m) | "gen_xyz" => map l3 (mh_gen m) | "unc_xyz" => map l3 (mh_unc m) | _ => map (fun e => [e]) (mh_eff m) end
    = map (fun P => qrow false v P c0) Pa ++ map (fun P => qrow false v P c1) Pb.

Definition unseen_unc : v3 := V3 PInf PInf (Fin 0).
Lemma quad_seen P c : good P -> downwards c -> through P c ->
  quad false P c = (l3 (mu3 (at_height c (pn_z P))), l3 (mu3 (at_height c (pn_z P))), [Fin (1 / pn_res P); Fin (1 / pn_res P); Fin 0], [Fin (pn_eff P)]).
Proof.
  intros G D T. apply through_covers in T; auto. unfold quad. pose proof (at_line c (pn_z P) D) as A. rewrite A. pose proof (f_equal vx A : mx (at_height c (pn_z P)) = Fin (px c (pn_z P))) as A1. pose proof (f_equal vy A : my (at_height c (pn_z P)) = Fin (py c (pn_z P))) as A2. rewrite A1, A2.
  rewrite (hit_seen P _ _ G T). reflexivity.
Qed.
Lemma quad_missed P c : good P -> downwards c -> ~ through P c -> q_unc (quad false P c) = [PInf; PInf; Fin 0].
Proof.
  intros G D T. rewrite through_covers in T by auto. unfold quad. pose proof (at_line c (pn_z P) D) as A. pose proof (f_equal vx A : mx (at_height c (pn_z P)) = Fin (px c (pn_z P))) as A1. pose proof (f_equal vy A : my (at_height c (pn_z P)) = Fin (py c (pn_z P))) as A2. rewrite A1, A2.
  destruct (hit_missed P _ _ G T) as (r & g & e & ->). reflexivity.
Qed.

Lemma quiet_missed lw zr m t c0 c1 Pa Pb : rec_hits m c0 c1 Pa Pb -> downwards c0 -> downwards c1 ->
  (forall P, In P Pa \/ In P Pb -> good P) -> usable lw zr (used_uncs false m) t ->
  (forall P, In P Pa -> through P c0) /\ (forall P, In P Pb -> through P c1).
Proof.
  intros R D0 D1 G (v1 & p1 & v2 & p2 & _ & _ & _ & _ & _ & _ & U). unfold used_uncs in U.
  specialize (R "unc_xyz" ltac:(cbn; auto)). cbv beta iota in R.
  assert (K : forall P c, In (qrow false "unc_xyz" P c) (map l3 (mh_unc m)) -> good P -> downwards c -> through P c).
  { intros P c Hin Gp Dc. destruct (covers_dec P (px c (pn_z P)) (py c (pn_z P))) as [C|C]; [apply through_covers; auto|].
    exfalso. apply in_map_iff in Hin as (u & Eu & Hu). change (qrow false "unc_xyz" P c) with (q_unc (quad false P c)) in Eu.
    rewrite (quad_missed P c Gp Dc) in Eu by (rewrite through_covers; auto). destruct (U u Hu) as [U1 _]. destruct u as [a b e]. cbn [l3 vx] in *. injection Eu as -> _ _. discriminate U1. }
  split; intros P HP; apply K; auto; rewrite R; apply in_app_iff; [left|right]; apply in_map_iff; eauto.
Qed.

Lemma quiet_seen lw zr m n c0 c1 P0 P1 ra Q0 Q1 rb : let Pa := P0 :: P1 :: ra in let Pb := Q0 :: Q1 :: rb in
  rec_hits m c0 c1 Pa Pb -> downwards c0 -> downwards c1 -> (forall P, In P Pa \/ In P Pb -> good P) ->
  (forall P, In P Pa -> through P c0) -> (forall P, In P Pb -> through P c1) ->
  pn_z P1 < pn_z P0 -> pn_z Q1 < pn_z Q0 -> n = len Pa ->
  mh_gen m = map (fun z => mu3 (at_height c0 z)) (map pn_z Pa) ++ map (fun z => mu3 (at_height c1 z)) (map pn_z Pb)
  /\ tracks1 false lw n m = tracks1 true lw n m
  /\ forall t, usable lw zr (used_uncs false m) t <-> usable lw zr (used_uncs true m) t.
Proof.
  intros Pa Pb R D0 D1 G Ta Tb La Lb Hn.
  assert (Q : forall v, map (fun P => qrow false v P c0) Pa = map (fun P => match assoc v [("reco_xyz", l3 (mu3 (at_height c0 (pn_z P)))); ("gen_xyz", l3 (mu3 (at_height c0 (pn_z P)))); ("unc_xyz", l3 (V3 (Fin (1 / pn_res P)) (Fin (1 / pn_res P)) (Fin 0))); ("eff", [Fin (pn_eff P)])] with Some r => r | None => [] end) Pa
           /\ map (fun P => qrow false v P c1) Pb = map (fun P => match assoc v [("reco_xyz", l3 (mu3 (at_height c1 (pn_z P)))); ("gen_xyz", l3 (mu3 (at_height c1 (pn_z P)))); ("unc_xyz", l3 (V3 (Fin (1 / pn_res P)) (Fin (1 / pn_res P)) (Fin 0))); ("eff", [Fin (pn_eff P)])] with Some r => r | None => [] end) Pb).
  { intro v. split; apply map_ext_in; intros P HP; unfold qrow; rewrite quad_seen by auto; reflexivity. }
  assert (Rr := R "reco_xyz" ltac:(cbn; auto)). assert (Rg := R "gen_xyz" ltac:(cbn; auto)). assert (Ru := R "unc_xyz" ltac:(cbn; auto)). assert (Re := R "eff" ltac:(cbn; auto)).
  cbv beta iota in Rr, Rg, Ru, Re. rewrite (proj1 (Q "reco_xyz")), (proj2 (Q "reco_xyz")) in Rr. rewrite (proj1 (Q "gen_xyz")), (proj2 (Q "gen_xyz")) in Rg. rewrite (proj1 (Q "unc_xyz")), (proj2 (Q "unc_xyz")) in Ru. rewrite (proj1 (Q "eff")), (proj2 (Q "eff")) in Re. cbn [assoc String.eqb Ascii.eqb Bool.eqb] in Rr, Rg, Ru, Re.
  assert (Er : mh_reco m = map (fun P => mu3 (at_height c0 (pn_z P))) Pa ++ map (fun P => mu3 (at_height c1 (pn_z P))) Pb) by (apply l3_inj; rewrite Rr, map_app, !map_map; reflexivity).
  assert (Eg : mh_gen m = map (fun P => mu3 (at_height c0 (pn_z P))) Pa ++ map (fun P => mu3 (at_height c1 (pn_z P))) Pb) by (apply l3_inj; rewrite Rg, map_app, !map_map; reflexivity).
  assert (Eu : mh_unc m = map (fun P => V3 (Fin (1 / pn_res P)) (Fin (1 / pn_res P)) (Fin 0)) (Pa ++ Pb)) by (apply l3_inj; rewrite Ru, !map_app, !map_map; reflexivity).
  assert (Ee : mh_eff m = map (fun P => Fin (pn_eff P)) (Pa ++ Pb)).
  { rewrite <- (map_id (mh_eff m)). rewrite map_app. assert (X : map (fun l : hrow => match l with a :: _ => a | [] => NaN end) (map (fun e => [e]) (mh_eff m)) = map (fun P => Fin (pn_eff P)) Pa ++ map (fun P => Fin (pn_eff P)) Pb) by (rewrite Re, map_app, !map_map; reflexivity).
    rewrite map_map in X. exact X. }
  clear R Q Rr Rg Ru Re. split; [rewrite !map_map; exact Eg|].
  assert (Gs : forall P, In P (Pa ++ Pb) -> 0 < pn_res P /\ 0 < pn_eff P /\ 1 / pn_res P < 10000000000 /\ 0 < 1 / pn_res P / pn_eff P < 2 ^ 75).
  { intros P HP. apply in_app_iff, G in HP as (_ & A & B). assert (A' : 0 < pn_res P) by lra. assert (B' : 0 < pn_eff P) by lra.
    assert (C : 1 / pn_res P < 10000000000). { apply (Rmult_lt_reg_r (pn_res P)); [auto|]. unfold Rdiv. rewrite Rmult_1_l, Rinv_l by lra. lra. }
    assert (C0 : 0 < 1 / pn_res P) by (apply Rdiv_lt_0_compat; lra).
    do 3 (split; [auto|]). split; [apply Rdiv_lt_0_compat; auto|].
    apply (Rmult_lt_reg_r (pn_eff P)); [auto|]. replace (1 / pn_res P / pn_eff P * pn_eff P) with (1 / pn_res P) by (field; lra).
    assert (2 ^ 75 = 37778931862957161709568) as -> by lra. lra. }
  split.
  - assert (Us : map2 (fun u e => vmap (fun a => xdiv a e) u) (mh_unc m) (mh_eff m) = map (fun P => V3 (Fin (1 / pn_res P / pn_eff P)) (Fin (1 / pn_res P / pn_eff P)) (Fin (0 / pn_eff P))) (Pa ++ Pb)).
    { rewrite Eu, Ee. clear - Gs. induction (Pa ++ Pb) as [|P l IH]; [reflexivity|]. cbn [map map2]. f_equal; [|apply IH; intros; apply Gs; right; auto].
      destruct (Gs P (or_introl eq_refl)) as (_ & B & _). unfold vmap. cbn [vx vy vz]. rewrite !xdiv_fin by lra. reflexivity. }
    unfold tracks1, used_uncs. rewrite Us, Er, Eg. rewrite !map_app, !map_map. rewrite !firstn_front, !skipn_front by (rewrite map_length; auto).
    unfold Pa, Pb. rewrite !(line_fit lw _ pn_z (fun P => 1 / pn_res P / pn_eff P) (fun P => Fin (0 / pn_eff P))), !(line_fit lw _ pn_z (fun _ => 1) (fun _ => Fin 1)); auto; intros P HP.
    all: try (split; [lra|apply Rlt_pow_R1; [lra|lia]]). all: apply Gs, in_app_iff; auto.
  - intro t. unfold usable. split; intros (v1 & p1 & v2 & p2 & A1 & A2 & A3 & A4 & A5 & A6 & _); exists v1, p1, v2, p2; (split; [exact A1|]); do 5 (split; [assumption|]); intros u Hu; unfold used_uncs in Hu.
    + apply in_map_iff in Hu as (x & <- & _). cbn [vx vy xlt]. split; destruct (Rltb_spec 1 10000000000); auto; lra.
    + rewrite Eu in Hu. apply in_map_iff in Hu as (P & <- & HP). destruct (Gs P HP) as (_ & _ & B & _). cbn [vx vy xlt]. split; destruct (Rltb_spec (1 / pn_res P) 10000000000); auto; lra.
Qed.

(* ---------- through the volume and into the batch ---------- *)
Lemma no_noise argsort o V As Ps Bs cs V' b1 lw zr b2 sb za0 za1 ra zb0 zb1 rb :
  is_argsort argsort -> v_layers V = map LDet As ++ map LPass Ps ++ map LDet Bs ->
  (forall D, In D As -> dl_pos D = "above") -> (forall D, In D Bs -> dl_pos D = "below") -> (forall L, In L Ps -> passive_ok L) ->
  hit_heights "above" (v_layers V) = za0 :: za1 :: ra -> za1 < za0 ->
  hit_heights "below" (v_layers V) = zb0 :: zb1 :: rb -> zb1 < zb0 ->
  (forall D P, In (LDet D) (v_layers V) -> In P (dl_panels D) -> good P) -> (forall k j i, vr_det o k j i = (0, 0)) ->
  (forall c, In c cs -> sound (g_mu c)) ->
  volume_forward argsort false o V (Batch (map g_mu cs) None [] []) = Some (Ok (V', b1)) ->
  scatter_batch false lw zr b1 = Ok (b2, sb) ->
  exists left outs keep,
    len left = len cs /\ len outs = len (select left cs) /\ b_muons b1 = map g_mu outs
    /\ (forall i c0 c1, nth_error (select left cs) i = Some c0 -> nth_error outs i = Some c1 ->
         downwards c1 /\ g_p c1 = g_p c0 /\ exists k, nth_error keep i = Some k /\ (k = true <-> clear lw zr c0 c1 /\ through_all "above" (v_layers V') c0 /\ through_all "below" (v_layers V') c1))
    /\ len keep = len outs /\ b_muons b2 = map g_mu (select keep outs) /\ len (sb_tracks sb) = len (select keep outs)
    /\ forall i c0 c1, nth_error (select keep (select left cs)) i = Some c0 -> nth_error (select keep outs) i = Some c1 -> tells zr sb i c0 c1.
Proof.
  intros Ha EV HA HB HP ZA LA ZB LB Hg0 Hqu Hs EF ES. unfold volume_forward in EF.
  destruct (assign_budget argsort V) as [V1|] eqn:E1; [|discriminate]. apply assign_same in E1.
  destruct (cross_layers _ _ _ _ _ _) as [[bc|]|] eqn:E2; try discriminate. injection EF as <- <-.
  (* the panels with a budget *)
  assert (Hg : forall D P, In (LDet D) (v_layers V1) -> In P (dl_panels D) -> good P).
  { clear - E1 Hg0. induction E1 as [|l l' ls ls' Hl _ IH]; [intros ? ? []|]. intros D P [->|HD] HP; [|eapply IH; eauto; intros; eapply Hg0; eauto; right; eauto].
    destruct l as [L|D0]; [contradiction|]. destruct Hl as (ps & -> & F). cbn [with_panels dl_panels] in HP.
    assert (exists P0, In P0 (dl_panels D0) /\ same_but_scale P0 P) as (P0 & H0 & (s & ->)).
    { clear - F HP. induction F as [|x y xs ys Hxy _ IH]; [destruct HP|]. destruct HP as [->|HP]; [exists x|destruct (IH HP) as (z & ? & ?); exists z]; cbn; auto. }
    exact (Hg0 D0 P0 (or_introl eq_refl) H0). }
  (* the layers with a budget *)
  assert (exists As' Bs', v_layers V1 = map LDet As' ++ map LPass Ps ++ map LDet Bs' /\ (forall D, In D As' -> dl_pos D = "above") /\ (forall D, In D Bs' -> dl_pos D = "below"))
    as (As' & Bs' & EV' & HA' & HB').
  { assert (K : forall p Ds ls, (forall D, In D Ds -> dl_pos D = p) -> Forall2 same_layer (map LDet Ds) ls ->
        exists Ds', ls = map LDet Ds' /\ forall D, In D Ds' -> dl_pos D = p).
    { intros p Ds. induction Ds as [|D Ds IH]; intros ls Hp F; inversion F; subst.
      - exists []. split; [reflexivity|intros ? []].
      - destruct (IH l') as (Ds' & -> & Hp'); auto. { intros; apply Hp; right; auto. }
        destruct y as [L|D']; [contradiction|]. exists (D' :: Ds'). split; [reflexivity|]. intros D0 [<-|H]; auto.
        match goal with H : same_layer _ _ |- _ => destruct H as (ps & -> & _) end. cbn. apply Hp; left; auto. }
    assert (K2 : forall ls, Forall2 same_layer (map LPass Ps) ls -> ls = map LPass Ps).
    { clear. induction Ps as [|L Ps IH]; intros ls F; inversion F; subst; cbn; auto. f_equal; auto. destruct y as [L'|]; [|contradiction].
      match goal with H : same_layer _ _ |- _ => cbn in H; subst; reflexivity end. }
    rewrite EV in E1. apply Forall2_app_inv_l in E1 as (la & lr & FA & E1 & ->). apply Forall2_app_inv_l in E1 as (lp & lb & FP & FB & ->).
    apply K2 in FP as ->. destruct (K _ _ _ HA FA) as (As' & -> & ?). destruct (K _ _ _ HB FB) as (Bs' & -> & ?). exists As', Bs'. auto. }
  pose proof (same_layer_heights "above" _ _ E1) as HHa. pose proof (same_layer_heights "below" _ _ E1) as HHb.
  rewrite ZA in HHa. rewrite ZB in HHb. rewrite EV' in E2, HHa, HHb.
  assert (Hnone : forall p q Ds, (forall D, In D Ds -> dl_pos D = p) -> p <> q -> hit_heights q (map LDet Ds) = []).
  { intros p q Ds Hp Hq. unfold hit_heights. induction Ds as [|D Ds IH]; [reflexivity|]. cbn [map flat_map]. rewrite IH by (intros; apply Hp; right; auto).
    rewrite (Hp D (or_introl eq_refl)). destruct (String.eqb_spec p q); [congruence|reflexivity]. }
  assert (Hpass : forall q Ps, hit_heights q (map LPass Ps) = []).
  { intros q Qs. unfold hit_heights. induction Qs; auto. }
  assert (Happ : forall q l l', hit_heights q (l ++ l') = hit_heights q l ++ hit_heights q l') by (intros; unfold hit_heights; apply flat_map_app).
  rewrite !Happ, Hpass in HHa, HHb. cbn [app] in HHa, HHb.
  rewrite (Hnone "below" "above" Bs' HB') in HHa by discriminate. rewrite (Hnone "above" "below" As' HA') in HHb by discriminate.
  rewrite app_nil_r in HHa. cbn [app] in HHb.
  (* downwards through the detectors above, the passive layers and the detectors below *)
  assert (Hd : forall c, In c cs -> downwards c) by (intros; apply sound_down; auto).
  destruct (cross_quiet argsort false o Ha Hqu "above" As' HA' _ 0 cs (Batch (map g_mu cs) None [] []) bc Hd eq_refl ltac:(constructor) E2)
    as (ca & ba & Pa & Sa & Ma & Hha & Oa & Za & Ia & Va & Ca).
  assert (Sn : Forall sound (b_muons ba)).
  { rewrite Ma. clear - Sa Hs. induction Sa as [|c c' cs ca (S1 & S2 & S3 & S4) _ IH]; cbn [map]; constructor.
    - assert (Hc : sound (g_mu c)) by (apply Hs; left; auto). destruct Hc as (x & y & z & p & th & ph & E & P & T). unfold g_mu in E. injection E as _ _ _ Ep Et Eh.
      exists (g_x c'), (g_y c'), (g_z c'), p, th, ph. unfold g_mu. rewrite S1, S2, S3, Ep, Et, Eh. auto.
    - apply IH. intros; apply Hs; right; auto. }
  assert (Lca : len (b_muons ba) = len cs) by (rewrite Ma, map_length; apply sl_len; auto).
  destruct (cross_passes argsort false o Ps HP (map LDet Bs') (0 + len As') ba bc Sn ltac:(rewrite Lca; auto) Ca) as (bp & Sp & Hhp & (k1 & Lk1 & Mk1 & Hk1) & Cp).
  destruct (sound_cases _ Sp) as (cp & Mp & Dp).
  rewrite Mp, map_length in Hhp. rewrite <- (app_nil_r (map LDet Bs')) in Cp.
  destruct (cross_quiet argsort false o Ha Hqu "below" Bs' HB' [] (0 + len As' + len Ps) cp bp bc Dp Mp Hhp Cp) as (cb & bb & Pb & Sb & Mb & Hhb & Ob & Zb & Ib & Vb & Cb).
  cbn [cross_layers] in Cb. injection Cb as ->. rename bc into b1.
  pose proof (sl_len _ _ Sb) as Lcb.
  assert (Lb1 : len (b_muons b1) = len cp) by (rewrite Mb, map_length; auto).
  destruct (kept_muons false lw zr b1 b2 sb ltac:(rewrite Lb1; auto) ES) as (na & hs & ts & k2 & d & Rt & Lhs & Lts & Lk2 & Us & M2 & H2 & _ & _ & Gd & Lh2 & Lt2 & Lc2 & Each).
  rewrite Lca in Lk1.
  assert (Lcp : len cp = count_true k1).
  { rewrite <- (map_length g_mu cp), <- Mp, <- (map_length mp (b_muons bp)), Mk1, select_length; auto. rewrite map_length. lia. }
  assert (Lcs : len (select k1 cs) = count_true k1) by (apply select_length; lia).
  (* what was recorded *)
  rewrite HHa in Za. rewrite HHb in Zb.
  destruct Pa as [|P0 [|P1 rpa]]; try discriminate Za. destruct Pb as [|Q0 [|Q1 rpb]]; try discriminate Zb.
  assert (LP : pn_z P1 < pn_z P0) by (cbn [map] in Za; congruence). assert (LQ : pn_z Q1 < pn_z Q0) by (cbn [map] in Zb; congruence).
  assert (Lza : len (za0 :: za1 :: ra) = len (P0 :: P1 :: rpa)) by (rewrite <- Za, map_length; reflexivity).
  set (Pa := P0 :: P1 :: rpa) in *. set (Pb := Q0 :: Q1 :: rpb) in *.
  assert (InA : forall D, In D As' -> In (LDet D) (v_layers V1)) by (intros D HD; rewrite EV'; apply in_app_iff; left; apply in_map; auto).
  assert (InB : forall D, In D Bs' -> In (LDet D) (v_layers V1)) by (intros D HD; rewrite EV'; apply in_app_iff; right; apply in_app_iff; right; apply in_map; auto).
  assert (InV : forall D, In (LDet D) (v_layers V1) -> In D As' \/ In D Bs').
  { intros D HD. rewrite EV', !in_app_iff, !in_map_iff in HD. destruct HD as [(x & E & HD)|[(x & E & HD)|(x & E & HD)]]; try discriminate; injection E as ->; auto. }
  assert (Gp : forall P, In P Pa \/ In P Pb -> good P) by (intros P [Hpn|Hpn]; [apply Ia in Hpn|apply Ib in Hpn]; destruct Hpn as (D & HD & Hpn); eauto).
  assert (TA : forall c, (forall P, In P Pa -> through P c) <-> through_all "above" (v_layers V1) c).
  { intro c. split.
    - intros H D P HD HE Hpn. apply H, Ia. exists D. split; [|auto]. destruct (InV D HD) as [X|X]; [auto|]. rewrite (HB' D X) in HE. discriminate.
    - intros H P Hpn. apply Ia in Hpn as (D & HD & Hpn). eapply H; eauto. }
  assert (TB : forall c, (forall P, In P Pb -> through P c) <-> through_all "below" (v_layers V1) c).
  { intro c. split.
    - intros H D P HD HE Hpn. apply H, Ib. exists D. split; [|auto]. destruct (InV D HD) as [X|X]; [|auto]. rewrite (HA' D X) in HE. discriminate.
    - intros H P Hpn. apply Ib in Hpn as (D & HD & Hpn). eapply H; eauto. }
  assert (RA : forall v, In v hit_variables -> recorded "above" v (b_hits b1) = map (fun P => map (qrow false v P) (select k1 cs)) Pa).
  { intros v Hv. rewrite Ob, Hk1, recorded_keep, Va by (discriminate || auto). change (recorded "above" v (b_hits (Batch (map g_mu cs) None [] []))) with (@nil (list hrow)).
    rewrite app_nil_l, !map_map. apply map_ext. intro P. apply select_map. }
  assert (RB : forall v, In v hit_variables -> recorded "below" v (b_hits b1) = map (fun P => map (qrow false v P) cb) Pb).
  { intros v Hv. rewrite Vb, Hk1, recorded_keep, Oa by (discriminate || auto). change (recorded "below" v (b_hits (Batch (map g_mu cs) None [] []))) with (@nil (list hrow)).
    change (map (select k1) (@nil (list hrow))) with (@nil (list hrow)). rewrite app_nil_l. apply map_ext. intro P. symmetry. apply qrows_line; auto. }
  assert (RC : len (recorded "above" "reco_xyz" (b_hits b1)) = len Pa).
  { rewrite RA, map_length by (cbn; auto). reflexivity. }
  assert (Dout : forall c, In c cb -> downwards c) by (eapply sl_all_down; eauto).
  assert (Din : forall c, In c (select k1 cs) -> downwards c) by (intros c Hc; apply Hd; eapply in_select; eauto).
  (* the hits of a muon, before and after the selection *)
  assert (Gen : forall (b : batch hrow) ins outs, hits_ok hrow (len outs) (b_hits b) -> len ins = len outs ->
      (forall v, In v hit_variables -> recorded "above" v (b_hits b) = map (fun P => map (qrow false v P) ins) Pa) ->
      (forall v, In v hit_variables -> recorded "below" v (b_hits b) = map (fun P => map (qrow false v P) outs) Pb) ->
      forall i m c0 c1, hits_of_muon (map_hits (tcols hrow (len outs)) (b_hits b)) i m -> nth_error ins i = Some c0 -> nth_error outs i = Some c1 ->
      rec_hits m c0 c1 Pa Pb).
  { intros b ins outs Hb Ll Ra Rb i m c0 c1 (Hr & Hgen & Hu & He) N0 N1 v Hv.
    assert (X : forall v, In v hit_variables -> row_of (map_hits (tcols hrow (len outs)) (b_hits b)) "above" v i ++ row_of (map_hits (tcols hrow (len outs)) (b_hits b)) "below" v i = map (fun P => qrow false v P c0) Pa ++ map (fun P => qrow false v P c1) Pb).
    { intros w Hw. f_equal.
      - rewrite <- Ll. apply (row_recorded (qrow false w)); [rewrite Ll; auto|apply Ra; auto|discriminate|exact N0].
      - apply (row_recorded (qrow false w)); [auto|apply Rb; auto|discriminate|exact N1]. }
    rewrite <- (X v Hv). destruct Hv as [<-|[<-|[<-|[<-|[]]]]]; auto. }
  exists k1, cb, k2.
  split; [auto|]. split; [lia|]. split; [auto|].
  assert (Hk2 : len k2 = len cb) by lia.
  assert (Hhcb : hits_ok hrow (len cb) (b_hits b1)) by (rewrite Lcb; auto).
  split.
  { intros i c0 c1 N0 N1. assert (Dc0 : downwards c0) by (apply Din; eapply nth_error_In; eauto).
    assert (Dc1 : downwards c1) by (apply Dout; eapply nth_error_In; eauto).
    assert (Il : (i < len cb)%nat) by (apply nth_error_Some; congruence).
    split; [exact Dc1|]. split.
    - assert (Es : map g_p cb = map g_p (select k1 cs)).
      { rewrite <- select_map. transitivity (map mp (b_muons bp)).
        - rewrite Mp, map_map. cbn [g_mu mp]. clear - Sb. induction Sb as [|c c' l l' (_ & _ & S & _) _ IH]; cbn [map]; congruence.
        - rewrite Mk1. f_equal. rewrite Ma, map_map. cbn [g_mu mp]. clear - Sa. induction Sa as [|c c' l l' (_ & _ & S & _) _ IH]; cbn [map]; congruence. }
      assert (X : nth_error (map g_p cb) i = nth_error (map g_p (select k1 cs)) i) by congruence.
      rewrite !nth_error_map, N0, N1 in X. cbn in X. congruence.
    - destruct (nth_error k2 i) as [k|] eqn:Nk; [|apply nth_error_None in Nk; lia]. exists k. split; [reflexivity|].
      destruct (nth_error hs i) as [m|] eqn:Nm; [|apply nth_error_None in Nm; lia]. destruct (nth_error ts i) as [t|] eqn:Nt; [|apply nth_error_None in Nt; lia].
      assert (HhL : hits_ok hrow (len (b_muons b1)) (b_hits b1)) by (rewrite Lb1; auto).
      destruct (read_tracks_inv _ _ _ _ _ _ _ HhL Rt) as (Hne & Ex & Et & _ & _).
      apply mapM_inv2 in Et. destruct (Forall2_nth _ _ _ Et _ _ Nm) as (t' & Ht' & Hx). assert (t' = t) as -> by congruence.
      rewrite Lb1, <- Lcb in Ex.
      pose proof (Gen b1 (select k1 cs) cb Hhcb ltac:(lia) RA RB i m c0 c1 (extract_rows _ _ _ _ _ Ex Nm) N0 N1) as G.
      assert (Ena : na = len Pa).
      { rewrite (extract_above _ (len cb) _ _ _ _ (assoc2_tcols_rect _ _ Hhcb) Ex Nm), row_count by auto. exact RC. }
      rewrite <- TA, <- TB. specialize (Us i m t Nm Nt). rewrite Nk in Us. split.
      + intros ->. assert (U : usable lw zr (used_uncs false m) t) by (apply Us; reflexivity).
        destruct (quiet_missed lw zr m t c0 c1 Pa Pb G Dc0 Dc1 Gp U) as [T0 T1]. split; [|auto].
        destruct (quiet_seen lw zr m na c0 c1 P0 P1 rpa Q0 Q1 rpb G Dc0 Dc1 Gp T0 T1 LP LQ Ena) as (Eg & Et' & Eu). fold Pa Pb in Eg. rewrite Za, Zb in Eg. rewrite Et' in Hx.
        rewrite <- Lza in Ena. destruct (true_pair lw zr c0 c1 m na t za0 za1 ra zb0 zb1 rb Dc0 Dc1 LA LB Eg Ena Hx) as (q0 & q1 & s0 & s1 & p0 & p1 & Q & K0 & K1 & _).
        apply Eu in U. rewrite Q in U. apply usable_clear in U; auto.
      + intros (Cl & T0 & T1). 
        destruct (quiet_seen lw zr m na c0 c1 P0 P1 rpa Q0 Q1 rpb G Dc0 Dc1 Gp T0 T1 LP LQ Ena) as (Eg & Et' & Eu). fold Pa Pb in Eg. rewrite Za, Zb in Eg. rewrite Et' in Hx.
        rewrite <- Lza in Ena. destruct (true_pair lw zr c0 c1 m na t za0 za1 ra zb0 zb1 rb Dc0 Dc1 LA LB Eg Ena Hx) as (q0 & q1 & s0 & s1 & p0 & p1 & Q & K0 & K1 & _).
        assert (X : usable lw zr (used_uncs false m) t) by (apply Eu; rewrite Q; apply usable_clear; auto). apply Us in X. congruence. }
  assert (Lout : len (select k2 cb) = count_true k2) by (apply select_length; lia).
  assert (Lin : len (select k2 (select k1 cs)) = count_true k2) by (apply select_length; lia).
  assert (M2' : b_muons b2 = map g_mu (select k2 cb)) by (rewrite M2, Mb, select_map; auto).
  split; [auto|]. split; [auto|]. split; [rewrite Lt2, M2', map_length; auto|].
  assert (Hh2 : hits_ok hrow (len (select k2 cb)) (b_hits b2)).
  { rewrite Lout, H2. apply (hits_ok_select hrow k2). rewrite Hk2, Lcb. auto. }
  assert (RA2 : forall v, In v hit_variables -> recorded "above" v (b_hits b2) = map (fun P => map (qrow false v P) (select k2 (select k1 cs))) Pa).
  { intros v Hv. rewrite H2, recorded_keep, RA, map_map by auto. apply map_ext. intro P. apply select_map. }
  assert (RB2 : forall v, In v hit_variables -> recorded "below" v (b_hits b2) = map (fun P => map (qrow false v P) (select k2 cb)) Pb).
  { intros v Hv. rewrite H2, recorded_keep, RB, map_map by auto. apply map_ext. intro P. apply select_map. }
  assert (Ed : d = map_hits (tcols hrow (len (select k2 cb))) (b_hits b2)).
  { rewrite (get_hits_all b2 _ Hh2) in Gd; [congruence|]. intro X. specialize (RA2 "gen_xyz" ltac:(cbn; auto)). rewrite X in RA2. discriminate RA2. }
  intros i c0 c1 N0 N1.
  assert (I2 : (i < len (select k2 cb))%nat) by (apply nth_error_Some; congruence).
  assert (Lm : len (b_muons b2) = len (select k2 cb)) by (rewrite M2', map_length; auto).
  destruct (nth_error (sb_hits sb) i) as [m|] eqn:Nm; [|apply nth_error_None in Nm; lia].
  destruct (nth_error (sb_tracks sb) i) as [t|] eqn:Nt; [|apply nth_error_None in Nt; lia].
  destruct (nth_error (sb_coefs sb) i) as [cf|] eqn:Nc; [|apply nth_error_None in Nc; lia].
  destruct (Each i m t cf Nm Nt Nc) as (Hm & Ab & Et & U & Ec & _). rewrite Ed in Hm, Ab.
  assert (Dc0 : downwards c0) by (apply Din; eapply in_select, nth_error_In; eauto).
  assert (Dc1 : downwards c1) by (apply Dout; eapply in_select, nth_error_In; eauto).
  pose proof (Gen b2 (select k2 (select k1 cs)) (select k2 cb) Hh2 ltac:(lia) RA2 RB2 i m c0 c1 Hm N0 N1) as G.
  assert (Ena : sb_above sb = len Pa) by (rewrite Ab, row_count by auto; rewrite H2, recorded_keep, map_length; exact RC).
  destruct (quiet_missed lw zr m t c0 c1 Pa Pb G Dc0 Dc1 Gp U) as [T0 T1].
  destruct (quiet_seen lw zr m (sb_above sb) c0 c1 P0 P1 rpa Q0 Q1 rpb G Dc0 Dc1 Gp T0 T1 LP LQ Ena) as (Eg & Et' & Eu). fold Pa Pb in Eg. rewrite Za, Zb in Eg.
  apply (tells_of_tracks lw zr sb i c0 c1 m cf t za0 za1 ra zb0 zb1 rb); auto.
  - rewrite Ena. symmetry. exact Lza.
  - rewrite <- Et'. exact Et.
  - apply Eu. exact U.
Qed.
