(* Properties C25-C33 and C69-C71: track fits and inferred scatterings. *)
From Coq Require Import Psatz.
From Verif Require Import Model.Volume Model.Scatter Spec.MuonSpec Spec.AngleSpec Spec.LayerSpec Spec.VolumeSpec Spec.ScatterSpec.
From Verif Require Import Proofs.MuonBatchP Proofs.PanelP Proofs.VolumeRun Proofs.TrackFit Proofs.ScatterGeo Proofs.ScatterKeep Proofs.ScatterBatchP Proofs.TrueTrack.
Open Scope R_scope.
Open Scope string_scope.
Open Scope list_scope.

(* C25. If the measurements that count lie on a line, with at least two different heights, the fit returns that line: the
   track starts on the line at the height of the first hit and leads to the height of the second.  Hits with infinite or
   very large uncertainty may be anywhere. *)
Theorem C25_fit_exact :
  forall lw h0 h1 rest ax bx ay by',
  let hs := h0 :: h1 :: rest in
  (forall h, In h hs -> fit_ok (h_x h) (u_x h) /\ fit_ok (h_y h) (u_y h)) ->
  two_heights (used_x hs) -> two_heights (used_y hs) ->
  (forall x z s, In (x, z, s) (used_x hs) -> x = ax + bx * z) ->
  (forall y z s, In (y, z, s) (used_y hs) -> y = ay + by' * z) ->
  trajectory lw (map hit_xyz hs) (map hit_unc hs) = Ok (track_on ax bx ay by' (h_z h0) (h_z h1)).
Proof. exact fit_exact. Qed.
Print Assumptions C25_fit_exact.

(* C26. The fitted line is, in each of x and y, the only one with the smallest sum of squared residuals in units of the
   uncertainties. *)
Theorem C26_fit_minimal :
  forall lw h0 h1 rest,
  let hs := h0 :: h1 :: rest in
  (forall h, In h hs -> fit_ok (h_x h) (u_x h) /\ fit_ok (h_y h) (u_y h)) ->
  two_heights (used_x hs) -> two_heights (used_y hs) ->
  exists ax bx ay by',
    trajectory lw (map hit_xyz hs) (map hit_unc hs) = Ok (track_on ax bx ay by' (h_z h0) (h_z h1))
    /\ best_line ax bx (used_x hs) /\ best_line ay by' (used_y hs).
Proof. exact fit_minimal. Qed.
Print Assumptions C26_fit_minimal.

(* four hits: three on the line x = 1 + z/2, y = 2, of different quality, and one that missed the panel *)
Definition four_hits : list hit_in :=
  [Hit (Fin (5/2)) (Fin 2) 3 (Fin (1/10)) (Fin (1/10)) (Fin 0);
   Hit PInf (Fin 7) 2 PInf PInf NaN;
   Hit (Fin (3/2)) (Fin 2) 1 (Fin 1) (Fin 2) (Fin 0);
   Hit (Fin 1) (Fin 2) 0 (Fin 1) (Fin (2^80)) (Fin 0)].
Lemma pow75 : 1 < 2 ^ 75. Proof. apply Rlt_pow_R1; [lra|lia]. Qed.
Lemma used1_small x z s : s <= 2 -> used1 (Fin x) z (Fin s) = [(x, z, s)].
Proof. intro L. assert (2 < 2 ^ 75) by (pose proof (Rlt_pow 2 1 75 ltac:(lra) ltac:(lia)); lra). unfold used1. destruct (Rlt_dec s (2 ^ 75)); [auto|lra]. Qed.
Lemma used1_big x z : used1 (Fin x) z (Fin (2 ^ 80)) = [].
Proof. assert (2 ^ 75 < 2 ^ 80) by (apply Rlt_pow; [lra|lia]). unfold used1. destruct (Rlt_dec (2 ^ 80) (2 ^ 75)); [lra|auto]. Qed.
Example C25_case :
  (forall h, In h four_hits -> fit_ok (h_x h) (u_x h) /\ fit_ok (h_y h) (u_y h))
  /\ two_heights (used_x four_hits) /\ two_heights (used_y four_hits)
  /\ (forall x z s, In (x, z, s) (used_x four_hits) -> x = 1 + 1/2 * z)
  /\ (forall y z s, In (y, z, s) (used_y four_hits) -> y = 2 + 0 * z).
Proof.
  assert (Ux : used_x four_hits = [(5/2, 3, 1/10); (3/2, 1, 1); (1, 0, 1)]) by (unfold used_x, four_hits; cbn [flat_map h_x h_z u_x app]; rewrite !used1_small by lra; reflexivity).
  assert (Uy : used_y four_hits = [(2, 3, 1/10); (2, 1, 2)]).
  { unfold used_y, four_hits. cbn [flat_map h_y h_z u_y app]. rewrite !used1_small by lra. rewrite used1_big. reflexivity. }
  rewrite Ux, Uy. split.
  { assert (0 < 2 ^ 80) by (apply pow_lt; lra).
    intros h [<-|[<-|[<-|[<-|[]]]]]; cbn [h_x h_y u_x u_y]; split; split; try discriminate; auto; right; eexists; (split; [reflexivity|]; split; [lra|]; right; eauto). }
  split; [exists (5/2, 3, 1/10), (3/2, 1, 1); repeat split; simpl; auto; lra|].
  split; [exists (2, 3, 1/10), (2, 1, 2); repeat split; simpl; auto; lra|].
  split; intros x z s Hin; simpl in Hin; repeat destruct Hin as [E|Hin]; try contradiction; injection E as <- <- <-; lra.
Qed.

(* C27. For tracks that are not parallel the inferred scatter location is the midpoint of the closest pair of points of the
   two lines, and of lines that meet it is their common point. *)
Theorem C27_poca :
  forall v1 p1 v2 p2, not_parallel v1 v2 ->
  exists c s t, coefs1 (ftrack v1 p1, ftrack v2 p2) = Ok c
    /\ poca1 (ftrack v1 p1, ftrack v2 p2) c = fv (midpoint (on_line p1 v1 s) (on_line p2 v2 t))
    /\ forall s' t', distance (on_line p1 v1 s) (on_line p2 v2 t) <= distance (on_line p1 v1 s') (on_line p2 v2 t').
Proof. exact poca_spec. Qed.
Print Assumptions C27_poca.
Theorem C27_meeting_lines :
  forall v1 p1 v2 p2 q s t, not_parallel v1 v2 -> on_line p1 v1 s = q -> on_line p2 v2 t = q ->
  exists c, coefs1 (ftrack v1 p1, ftrack v2 p2) = Ok c /\ poca1 (ftrack v1 p1, ftrack v2 p2) c = fv q.
Proof. exact poca_meet. Qed.
Print Assumptions C27_meeting_lines.
Lemma kinked : not_parallel (0, 0, -1) (1, 0, -1).
Proof. intros s t E. unfold scale3 in E. injection E as E1 E2 E3. lra. Qed.
Example C27_case : not_parallel (0, 0, -1) (1, 0, -1)
  /\ on_line (0, 0, 5) (0, 0, -1) 3 = (0, 0, 2) /\ on_line (2, 0, 0) (1, 0, -1) (-2) = (0, 0, 2).
Proof. split; [exact kinked|]. unfold on_line, add3, scale3. split; f_equal; [f_equal| |f_equal|]; lra. Qed.

(* C69. dxy is, in x and y, the step from the closest point of the incoming track to that of the outgoing one. *)
Theorem C69_gap :
  forall v1 p1 v2 p2, not_parallel v1 v2 ->
  exists c s t, coefs1 (ftrack v1 p1, ftrack v2 p2) = Ok c
    /\ vscale (vz c) (vcross (fv v1) (fv v2)) = fv (sub3 (on_line p2 v2 t) (on_line p1 v1 s))
    /\ forall s' t', distance (on_line p1 v1 s) (on_line p2 v2 t) <= distance (on_line p1 v1 s') (on_line p2 v2 t').
Proof. exact dxy_spec. Qed.
Print Assumptions C69_gap.

(* C28. Whenever a scatter batch is built from a batch of muons with aligned hits:
   - a muon stays in the batch exactly if its tracks are usable; the others are removed and recorded as removed, and the
     hits lose the same rows;
   - what the scatter batch holds for place i belongs to muon i of the filtered batch: its hits as read back from the
     batch, the tracks fitted to these, usable ones, and finite coefficients of the scatter location. *)
Theorem C28_kept_muons :
  forall gen lw zr (b b' : batch (list xr)) sb,
  hits_ok (list xr) (List.length (b_muons b)) (b_hits b) ->
  scatter_batch gen lw zr b = Ok (b', sb) ->
  exists na hs ts keep d,
    read_tracks gen lw b = Ok (na, hs, ts)
    /\ List.length hs = List.length (b_muons b) /\ List.length ts = List.length (b_muons b) /\ List.length keep = List.length (b_muons b)
    /\ (forall i m t, nth_error hs i = Some m -> nth_error ts i = Some t ->
          (nth_error keep i = Some true <-> usable lw zr (hit_uncs gen m) t))
    /\ b_muons b' = select keep (b_muons b) /\ b_hits b' = keep_hits keep (b_hits b) /\ b_hist b' = b_hist b
    /\ removed_of b' = removed_of b ++ select (negm keep) (b_muons b)
    /\ get_hits None None b' = Ok d
    /\ List.length (sb_hits sb) = List.length (b_muons b') /\ List.length (sb_tracks sb) = List.length (b_muons b')
    /\ List.length (sb_coefs sb) = List.length (b_muons b')
    /\ forall i m t c, nth_error (sb_hits sb) i = Some m -> nth_error (sb_tracks sb) i = Some t -> nth_error (sb_coefs sb) i = Some c ->
         hits_of_muon d i m /\ sb_above sb = List.length (row_of d "above" "reco_xyz" i)
         /\ tracks1 gen lw (sb_above sb) m = Ok t /\ usable lw zr (hit_uncs gen m) t
         /\ coefs1 t = Ok c /\ exists c', c = fv c'.
Proof. exact kept_muons. Qed.
Print Assumptions C28_kept_muons.

(* C28. After muons crossed a volume with at least two panels above and two below, building the scatter batch raises no
   exception, unless exactly one muon is left. *)
Theorem C28_no_exception :
  forall gen lw zr argsort tr o V us V' b,
  is_argsort argsort -> Forall sound us -> (forall L, In (LPass L) (v_layers V) -> passive_ok L) ->
  volume_forward argsort tr o V (Batch us None [] []) = Some (Ok (V', b)) ->
  (2 <= List.length (hit_heights "above" (v_layers V)))%nat -> (2 <= List.length (hit_heights "below" (v_layers V)))%nat ->
  List.length (b_muons b) <> 1%nat ->
  exists b' sb, scatter_batch gen lw zr b = Ok (b', sb).
Proof. exact scatter_after_volume. Qed.
Print Assumptions C28_no_exception.

(* C28. A side with fewer than two hits has no track: the fit raises IndexError (not the NaN trajectory that its documentation promises). *)
Theorem C28_too_few_hits :
  forall lw hits uncs, List.length hits = List.length uncs -> (List.length hits < 2)%nat -> trajectory lw hits uncs = Err IndexError.
Proof.
  intros lw hits uncs E H. unfold trajectory. rewrite E, Nat.eqb_refl. cbn [negb]. cbv zeta.
  destruct (fit_axis _) as [a b]. destruct (fit_axis _) as [c d]. destruct hits as [|h [|h' hits]]; [reflexivity|reflexivity|cbn in H; lia].
Qed.
Print Assumptions C28_too_few_hits.
Example C28_too_few_hits_case : trajectory (1, 1) [V3 (Fin 0) (Fin 0) (Fin 1)] [V3 (Fin 1) (Fin 1) (Fin 0)] = Err IndexError.
Proof. apply C28_too_few_hits; cbn; lia. Qed.

(* two muons seen by two panels above and two below; the first is deflected at height 2, the second flies straight *)
Definition two_rows (z x : R) : list (list xr) := [[Fin x; Fin 0; Fin z]; [Fin 1; Fin 0; Fin z]].
Definition two_panels (h : R -> list (list xr)) (za zb : R) : list (string * list (list (list xr))) :=
  [("reco_xyz", [h za; h zb]); ("gen_xyz", [h za; h zb]);
   ("unc_xyz", [[[Fin 1; Fin 1; Fin 0]; [Fin 1; Fin 1; Fin 0]]; [[Fin 1; Fin 1; Fin 0]; [Fin 1; Fin 1; Fin 0]]]);
   ("eff", [[[Fin 1]; [Fin 1]]; [[Fin 1]; [Fin 1]]])].
Definition two_muons : batch (list xr) :=
  Batch [Mu (Fin 0) (Fin 0) (Fin 0) (Fin 1) (Fin 0) (Fin 0); Mu (Fin 1) (Fin 0) (Fin 0) (Fin 1) (Fin 0) (Fin 0)] None
    [("above", two_panels (fun z => two_rows z 0) 5 4); ("below", two_panels (fun z => two_rows z (2 - z)) 1 0)] [].
Lemma sin_small : sin (1 / 100000) <= 1 / 100000.
Proof. apply Rlt_le, sin_lt_x. lra. Qed.
Example C28_case :
  hits_ok (list xr) (List.length (b_muons two_muons)) (b_hits two_muons)
  /\ (exists b' sb, scatter_batch true (1, 1) (1, 4) two_muons = Ok (b', sb))
  /\ usable (1, 1) (1, 4) [V3 (Fin 1) (Fin 1) (Fin 1)] (ftrack (0, 0, -1) (0, 0, 5), ftrack (1, 0, -1) (1, 0, 1))
  /\ ~ usable (1, 1) (1, 4) [V3 (Fin 1) (Fin 1) (Fin 1)] (ftrack (0, 0, -1) (1, 0, 5), ftrack (0, 0, -1) (1, 0, 1)).
Proof.
  assert (Hh : hits_ok (list xr) (List.length (b_muons two_muons)) (b_hits two_muons)).
  { cbn. repeat (constructor; cbn; try discriminate). }
  split; [exact Hh|]. split.
  { destruct (scatter_total true (1, 1) (1, 4) two_muons 2 2 Hh) as [[b' sb] E]; try lia; eauto; try (cbn; lia).
    all: intros v [<-|[<-|[<-|[<-|[]]]]]; cbn; (split; [reflexivity|]); intros t row [<-|[<-|[]]] [<-|[<-|[]]]; reflexivity. }
  pose proof sin_small as S. split.
  - exists (0, 0, -1), (0, 0, 5), (1, 0, -1), (1, 0, 1). split; [reflexivity|]. unfold steep, norm3, z3, dot3. cbn [fst snd].
    assert (S0 : 0 <= sin (1 / 100000)) by (apply sin_ge_0; pose proof PI2_3_2; unfold PI2 in *; lra).
    split. { replace (0 * 0 + 0 * 0 + -1 * -1) with 1 by ring. rewrite sqrt_1. lra. }
    split. { assert (sqrt (1 * 1 + 0 * 0 + -1 * -1) <= 2) by (replace 2 with (sqrt (2 * 2)) by (rewrite sqrt_square; lra); apply sqrt_le_1; lra).
             pose proof (sqrt_pos (1 * 1 + 0 * 0 + -1 * -1)).
             apply Rle_lt_trans with (1 / 100000 * 2); [apply Rmult_le_compat; lra|lra]. }
    split; [exact kinked|]. split; [exists 1; unfold on_line, add3, scale3, near; cbn [fst snd]; lra|].
    split; [exists 0; unfold on_line, add3, scale3, near; cbn [fst snd]; lra|].
    intros u [<-|[]]. cbn [vx vy xlt]. split; destruct (Rltb_spec 1 10000000000); auto; lra.
  - intros (v1 & p1 & v2 & p2 & E & _ & _ & NP & _). injection E as E1 E2 E3 E4.
    destruct v1 as [[? ?] ?], v2 as [[? ?] ?]. cbn in E1, E3. injection E1 as <- <- <-. injection E3 as <- <- <-.
    destruct (NP 1 1); [reflexivity|lra].
Qed.

(* C28. With exactly one muon left, a scatter batch cannot be built if that muon should be removed: the mask loses its last
   axis, and indexing with it adds one to the muons and hits instead of removing anything. *)
Definition one_rows (z : R) : list (list xr) := [[Fin 1; Fin 0; Fin z]].
Definition one_panels (za zb : R) : list (string * list (list (list xr))) :=
  [("reco_xyz", [one_rows za; one_rows zb]); ("gen_xyz", [one_rows za; one_rows zb]);
   ("unc_xyz", [[[Fin 1; Fin 1; Fin 0]]; [[Fin 1; Fin 1; Fin 0]]]); ("eff", [[[Fin 1]]; [[Fin 1]]])].
Definition one_muon : batch (list xr) :=
  Batch [Mu (Fin 1) (Fin 0) (Fin 0) (Fin 1) (Fin 0) (Fin 0)] None [("above", one_panels 5 4); ("below", one_panels 1 0)] [].
Lemma straight_fit z0 z1 : z0 <> z1 ->
  trajectory (1, 1) [V3 (Fin 1) (Fin 0) (Fin z0); V3 (Fin 1) (Fin 0) (Fin z1)] [V3 (Fin 1) (Fin 1) (Fin 1); V3 (Fin 1) (Fin 1) (Fin 1)]
  = Ok (track_on 1 0 0 0 z0 z1).
Proof.
  intro N. set (h z := Hit (Fin 1) (Fin 0) z (Fin 1) (Fin 1) (Fin 1)).
  assert (Ux : used_x [h z0; h z1] = [(1, z0, 1); (1, z1, 1)]) by (unfold used_x, h; cbn [flat_map h_x h_z u_x app]; rewrite !used1_small by lra; reflexivity).
  assert (Uy : used_y [h z0; h z1] = [(0, z0, 1); (0, z1, 1)]) by (unfold used_y, h; cbn [flat_map h_y h_z u_y app]; rewrite !used1_small by lra; reflexivity).
  apply (fit_exact (1, 1) (h z0) (h z1) [] 1 0 0 0).
  - intros k [<-|[<-|[]]]; split; (split; [discriminate|]); right; exists 1; (split; [reflexivity|]); (split; [lra|]); right; eexists; reflexivity.
  - rewrite Ux. exists (1, z0, 1), (1, z1, 1). repeat split; simpl; auto.
  - rewrite Uy. exists (0, z0, 1), (0, z1, 1). repeat split; simpl; auto.
  - rewrite Ux. intros x z s [E|[E|[]]]; injection E as <- <- <-; lra.
  - rewrite Uy. intros x z s [E|[E|[]]]; injection E as <- <- <-; lra.
Qed.
Theorem C28_single_muon_refuted :
  exists (b : batch (list xr)) lw zr,
    List.length (b_muons b) = 1%nat /\ hits_ok (list xr) 1 (b_hits b)
    /\ (exists r, read_tracks true lw b = Ok r)
    /\ scatter_batch true lw zr b = Err RankChanged.
Proof.
  assert (R : exists m, read_tracks true (1, 1) one_muon = Ok (2%nat, [m], [(track_on 1 0 0 0 5 4, track_on 1 0 0 0 1 0)])).
  { unfold read_tracks.
    eexists. cbv [get_hits one_muon b_hits b_muons one_panels one_rows]. cbn - [trajectory IZR]. unfold tracks1, used_uncs. cbn [mh_gen map firstn skipn]. rewrite !straight_fit by lra. cbn [bind]. reflexivity. }
  destruct R as [m R]. exists one_muon, (1, 1), (1, 4). split; [reflexivity|]. split; [cbn; repeat (constructor; cbn; try discriminate)|].
  split; [eauto|]. unfold scatter_batch. rewrite R. cbn [bind map2].
  destruct (keep1 true (1, 1) (1, 4) m (track_on 1 0 0 0 5 4, track_on 1 0 0 0 1 0)) eqn:K; [|reflexivity].
  exfalso. apply keep_usable in K as (v1 & p1 & v2 & p2 & E & _ & _ & NP & _). unfold track_on, ftrack in E. injection E as E1 E2 E3 E4.
  destruct v1 as [[? ?] ?], v2 as [[? ?] ?]. cbn [fv] in E1, E3. injection E1 as <- <- <-. injection E3 as <- <- <-.
  destruct (NP 1 1); [unfold scale3; f_equal; [f_equal|]; ring|lra].
Qed.
Print Assumptions C28_single_muon_refuted.

(* C29. The inferred entry (exit) point is the point of the track at the height of the top (bottom) of the passive volume. *)
Theorem C29_entry_exit :
  forall v p zr, z3 v <> 0 ->
  (exists t, xyz_in1 zr (ftrack v p) = fv (on_line p v t) /\ z3 (on_line p v t) = snd zr)
  /\ (exists t, xyz_out1 zr (ftrack v p) = fv (on_line p v t) /\ z3 (on_line p v t) = fst zr).
Proof. exact entry_exit. Qed.
Print Assumptions C29_entry_exit.
Example C29_case : z3 (1, 2, -1) <> 0.
Proof. unfold z3. simpl. lra. Qed.

(* C30. Theta and phi of a track going down give back its direction. *)
Theorem C30_direction :
  forall v, z3 v < 0 -> exists th ph,
  theta1 (fv v) = Fin th /\ phi1 (vx (fv v)) (vy (fv v)) = Fin ph /\ 0 <= th < PI / 2 /\ 0 <= ph < 2 * PI
  /\ scale3 (norm3 v) (direction th ph) = v.
Proof. exact theta_phi_direction. Qed.
Print Assumptions C30_direction.
Example C30_case : z3 (-1, -2, -1) < 0.
Proof. unfold z3. simpl. lra. Qed.

(* C70. theta_xy are the angles between the vertical and the projections of the track on the xz and yz planes. *)
Theorem C70_projected_angles :
  forall v, z3 v < 0 ->
  xproj_x (theta1 (fv v)) (phi1 (vx (fv v)) (vy (fv v))) = Fin (atan (fst (fst v) / - z3 v))
  /\ xproj_y (theta1 (fv v)) (phi1 (vx (fv v)) (vy (fv v))) = Fin (atan (snd (fst v) / - z3 v)).
Proof. exact projected. Qed.
Print Assumptions C70_projected_angles.

(* C31. The total scattering angle of two tracks. *)
Theorem C31_total_angle :
  forall p q, p <> (0, 0, 0) -> q <> (0, 0, 0) -> exists a,
  theta_msc1 (fv p) (fv q) = Fin a /\ 0 <= a <= PI /\ norm3 p * norm3 q * cos a = dot3 p q.
Proof. exact total_angle. Qed.
Print Assumptions C31_total_angle.
Theorem C31_symmetric :
  forall p q, p <> (0, 0, 0) -> q <> (0, 0, 0) -> theta_msc1 (fv q) (fv p) = theta_msc1 (fv p) (fv q).
Proof. exact total_sym. Qed.
Print Assumptions C31_symmetric.
Theorem C31_scaling :
  forall p q k l, p <> (0, 0, 0) -> q <> (0, 0, 0) -> 0 < k -> 0 < l ->
  theta_msc1 (fv (scale3 k p)) (fv (scale3 l q)) = theta_msc1 (fv p) (fv q).
Proof. exact total_scale. Qed.
Print Assumptions C31_scaling.
Example C31_case : (0, 0, -1) <> (0, 0, 0) /\ (1, 0, -1) <> (0, 0, 0).
Proof. split; intro E; injection E; lra. Qed.

(* C32. The inferred changes of theta and phi.  a is the angle between the azimuths. *)
Theorem C32_theta_phi_changes :
  forall ti pi to po, 0 <= ti -> 0 <= to -> 0 <= pi < 2 * PI -> 0 <= po < 2 * PI ->
  exists a dt dp, dtheta_dphi1 (Fin ti) (Fin pi) (Fin to) (Fin po) = (Fin dt, Fin dp)
    /\ dtheta_dphi1 (Fin to) (Fin po) (Fin ti) (Fin pi) = (Fin dt, Fin dp)
    /\ 0 <= a <= PI /\ cos a = cos (pi - po)
    /\ 0 <= dt /\ 0 <= dp <= PI
    /\ ((dt, dp) = (Rabs (ti - to), a) \/ (dt, dp) = (ti + to, PI - a))
    /\ dt * dt + dp * dp <= (ti - to) * (ti - to) + a * a
    /\ dt * dt + dp * dp <= (ti + to) * (ti + to) + (PI - a) * (PI - a)
    /\ exists s t, (s = 1 \/ s = -1) /\ (t = 1 \/ t = -1) /\ direction (ti + s * dt) (pi + t * dp) = direction to po.
Proof. exact dtheta_dphi_spec. Qed.
Print Assumptions C32_theta_phi_changes.
Example C32_case : 0 <= 1/10 /\ 0 <= 2/10 /\ 0 <= 1/10 < 2 * PI /\ 0 <= 6 < 2 * PI.
Proof. pose proof PI2_3_2. unfold PI2 in *. assert (3 < PI) by lra. lra. Qed.

(* C33. Whatever the order in which the variables of a scatter batch and their uncertainties are read, and however often,
   each read returns the value computed directly from the tracks (and the uncertainty computed from that value). *)
Theorem C33_cached_is_fresh :
  forall zr sb unc_of reads,
  fst (read_all zr sb unc_of reads empty_memo)
  = map (fun vu : svar * bool => if snd vu then unc_of (fst vu) (value zr sb (fst vu)) else value zr sb (fst vu)) reads.
Proof. exact cached_reads. Qed.
Print Assumptions C33_cached_is_fresh.
Example C33_case :
  let sb := SB [] 0 [(ftrack (0, 0, -1) (0, 0, 5), ftrack (1, 0, -1) (1, 0, 1))] [V3 (Fin 3) (Fin (-1)) (Fin 0)] in
  List.length (fst (read_all (1, 4) sb (fun _ x => x) [(DTheta, true); (ThetaIn, false); (DTheta, false); (DThetaXy, false); (PhiOut, true); (DTheta, true)] empty_memo)) = 6%nat
  /\ List.length (value (1, 4) sb DThetaXy) = 1%nat.
Proof. split; reflexivity. Qed.

(* C71. Muons flying down cross a detector layer that has at least two panels, the two highest at different heights.  The
   true hits read back for muon i, fitted with unit uncertainties (GenScatterBatch), give back the muon: its zenith angle,
   its azimuth (if it is not vertical), and where it is at any height, in particular at the faces of the passive volume. *)
Theorem C71_true_tracks :
  forall argsort D tr rng cs (b b' : batch (list xr)) lw zr z0 z1 rest,
  is_argsort argsort -> (forall c, In c cs -> downwards c) -> b_muons b = map g_mu cs -> b_hits b = [] ->
  det_forward argsort D tr rng b = Ok b' ->
  sort_down (map pn_z (dl_panels D)) = z0 :: z1 :: rest -> z1 < z0 ->
  exists d rows, get_hits None None b' = Ok d /\ assoc2 (dl_pos D) "gen_xyz" d = Some rows
    /\ forall i c, nth_error cs i = Some c -> exists hs t ph,
         nth_error rows i = Some (map l3 hs) /\ trajectory lw hs (map (fun _ => V3 (Fin 1) (Fin 1) (Fin 1)) hs) = Ok t
         /\ theta1 (t_vec t) = Fin (g_th c) /\ phi1 (vx (t_vec t)) (vy (t_vec t)) = Fin ph
         /\ (0 < g_th c -> 0 <= g_ph c < 2 * PI -> ph = g_ph c)
         /\ l3 (t_start t) = xyz (at_height c z0)
         /\ l3 (xyz_in1 zr t) = xyz (at_height c (snd zr)) /\ l3 (xyz_out1 zr t) = xyz (at_height c (fst zr)).
Proof. exact true_tracks_of_layer. Qed.
Print Assumptions C71_true_tracks.
Definition two_panel_layer : detlayer :=
  Det "above" 1 1 4 1 [Panel Gauss 1000 (9/10) (1/2) (1/2) (13/4) 1 1 1 1 true; Panel Gauss 1000 (9/10) (1/2) (1/2) (15/4) 1 1 1 1 true].
Example C71_case : downwards (GC true (1/2) (1/2) 4 (Fin 5) (1/10) 3 0)
  /\ sort_down (map pn_z (dl_panels two_panel_layer)) = [15/4; 13/4] /\ 13/4 < 15/4.
Proof.
  split; [unfold downwards; cbn; pose proof PI2_3_2; unfold PI2 in *; lra|]. split; [|lra]. cbn - [IZR Rdiv].
  destruct (Rle_dec (15/4) (13/4)); [lra|reflexivity].
Qed.
