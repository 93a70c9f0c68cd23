(* C110: tracks and scatterings do not depend on where the origin is, on which axis is called x, on the order in which the
   hits are listed or on a factor common to all uncertainties. *)
From Coq Require Import Reals List Psatz Permutation.
From Verif Require Import Spec.LayerSpec Spec.SymmetrySpec Proofs.SymmetryP Proofs.ScatterGeo Proofs.ScatterKeep Proofs.TrackFit.
From Verif Require Import Base.RUtil Base.XR.
Import ListNotations.
Open Scope R_scope.
Open Scope list_scope.

(* C110. With the origin elsewhere, the fit gives the same track, seen from there.  The size of the volume, of which the
   fit uses half the mean as position of missed hits, has no influence. *)
Theorem C110_moved :
  forall lw lw' a b c h0 h1 rest,
  let hs := h0 :: h1 :: rest in
  (forall h, In h hs -> fit_ok (h_x h) (u_x h) /\ fit_ok (h_y h) (u_y h)) ->
  two_heights (used_x hs) -> two_heights (used_y hs) ->
  exists t, trajectory lw (map hit_xyz hs) (map hit_unc hs) = Ok t
    /\ trajectory lw' (map hit_xyz (map (moved_hit a b c) hs)) (map hit_unc (map (moved_hit a b c) hs)) = Ok (moved_track a b c t).
Proof. exact fit_moved. Qed.
Print Assumptions C110_moved.

(* C110. ... and so are the scatterings: points move with the origin, angles and distances stay. *)
Theorem C110_moved_scatters :
  forall a b c zr sb v, sound_scatters sb ->
  value (fst zr + c, snd zr + c) (moved_scatters a b c sb) v = (if is_place v then map (moved_row a b c) (value zr sb v) else value zr sb v).
Proof. exact value_moved. Qed.
Print Assumptions C110_moved_scatters.

(* C110. With x and y exchanged, everything that is done to a muon is the same with x and y exchanged: the tracks, including
   the exceptions, and whether the muon is kept.  No condition on the hits. *)
Theorem C110_exchanged :
  forall gen lw zr n m,
  tracks1 gen (flip2 lw) n (flip_hits m) = rmap flip_tracks (tracks1 gen lw n m)
  /\ forall ts, keep1 gen (flip2 lw) zr (flip_hits m) (flip_tracks ts) = keep1 gen lw zr m ts.
Proof. intros. split; [apply tracks_flip|intro; apply keep_flip]. Qed.
Print Assumptions C110_exchanged.

(* C110. ... and the scatterings, all but the azimuths ... *)
Theorem C110_exchanged_scatters :
  forall zr sb sb' v, sound_scatters sb -> sound_scatters sb' -> sb_tracks sb' = map flip_tracks (sb_tracks sb) ->
  is_azimuth v = false -> value zr sb' v = map flip_row (value zr sb v).
Proof. exact value_flip. Qed.
Print Assumptions C110_exchanged_scatters.

(* C110. ... which are mirrored; their differences stay as they are, if no track is exactly vertical. *)
Theorem C110_exchanged_azimuths :
  forall zr sb sb', sound_scatters sb -> sb_tracks sb' = map flip_tracks (sb_tracks sb) -> Forall not_vertical (sb_tracks sb) ->
  value zr sb' DTheta = value zr sb DTheta /\ value zr sb' DPhi = value zr sb DPhi
  /\ Forall2 mirrored (value zr sb PhiIn) (value zr sb' PhiIn) /\ Forall2 mirrored (value zr sb PhiOut) (value zr sb' PhiOut).
Proof. exact azimuth_flip. Qed.
Print Assumptions C110_exchanged_azimuths.

(* a muon coming straight down and leaving along x; the same with x and y exchanged *)
Definition down_then_x : track * track := (ftrack (0, 0, -1) (0, 0, 1), ftrack (1, 0, -1) (0, 0, 0)).
Definition batch_of (ts : track * track) (c : R3) : scatters := SB [] 0 [ts] [fv c].

(* C110. A vertical track has no azimuth; the code takes 0, and the difference of the azimuths then depends on which axis is
   called x: 0 for a muon leaving along x and a right angle for one leaving along y. *)
Theorem C110_vertical_refuted :
  exists zr sb sb' a b, sound_scatters sb /\ sound_scatters sb' /\ sb_tracks sb' = map flip_tracks (sb_tracks sb)
    /\ value zr sb DPhi = [[Fin a]] /\ value zr sb' DPhi = [[Fin b]] /\ a <> b.
Proof.
  assert (N : not_parallel (0, 0, -1) (1, 0, -1)). { intros s t E. cbn in E. injection E as E1 E2. lra. }
  assert (N' : not_parallel (0, 0, -1) (0, 1, -1)). { intros s t E. cbn in E. injection E as E1 E2. lra. }
  destruct (coefs_fin (0, 0, -1) (0, 0, 1) (1, 0, -1) (0, 0, 0) (cross_nonzero _ _ N)) as (c0 & c1 & c2 & E & _).
  destruct (coefs_fin (0, 0, -1) (0, 0, 1) (0, 1, -1) (0, 0, 0) (cross_nonzero _ _ N')) as (d0 & d1 & d2 & E' & _).
  exists (0, 1), (batch_of down_then_x (c0, c1, c2)), (batch_of (flip_tracks down_then_x) (d0, d1, d2)), 0, (PI / 2).
  assert (P00 : phi1 (Fin 0) (Fin 0) = Fin 0). { unfold phi1. cbn. destruct (Reqb_spec 0 0); [|lra]. destruct (Rltb_spec 0 0); [lra|]. reflexivity. }
  assert (P10 : phi1 (Fin 1) (Fin 0) = Fin 0). { unfold phi1. cbn [xeq xlt]. destruct (Reqb_spec 1 0); [lra|]. destruct (Rltb_spec 0 0); [lra|]. destruct (Rltb_spec 1 0); [lra|]. destruct (Rltb_spec 0 1); [|lra]. cbn [andb negb]. rewrite xdiv_fin by lra. cbn [xatan].
    replace (0 / 1) with 0 by lra. rewrite atan_0. reflexivity. }
  assert (P01 : phi1 (Fin 0) (Fin 1) = Fin (PI / 2)). { unfold phi1. cbn [xeq xlt]. destruct (Reqb_spec 0 0); [|lra]. destruct (Rltb_spec 0 0); [lra|]. destruct (Rltb_spec 1 0); [lra|]. destruct (Rltb_spec 0 1); [|lra]. reflexivity. }
  destruct (theta_spec (0, 0, -1)) as (t1 & T1 & B1 & _); [unfold z3; cbn; lra|]. destruct (theta_spec (1, 0, -1)) as (t2 & T2 & B2 & _); [unfold z3; cbn; lra|]. destruct (theta_spec (0, 1, -1)) as (t3 & T3 & B3 & _); [unfold z3; cbn; lra|].
  pose proof PI_RGT_0 as P. split; [|split; [|split; [reflexivity|split; [|split; [|lra]]]]].
  - constructor; [|constructor]. exists (0, 0, -1), (0, 0, 1), (1, 0, -1), (0, 0, 0). unfold z3. cbn [fst snd]. split; [reflexivity|]. split; [lra|]. split; [lra|]. split; [exact N|exact E].
  - constructor; [|constructor]. exists (0, 0, -1), (0, 0, 1), (0, 1, -1), (0, 0, 0). unfold z3. cbn [fst snd]. split; [reflexivity|]. split; [lra|]. split; [lra|]. split; [exact N'|exact E'].
  - cbn [value batch_of sb_tracks map]. unfold th_in, th_out, ph_in, ph_out, down_then_x. cbn [fst snd ftrack t_vec]. rewrite T1, T2. cbn [vx vy fv]. rewrite P00, P10, dtheta_dphi_fin.
    assert (C : dphi0 0 0 = 0). { rewrite <- (circ_dphi 0 0). unfold circ. replace (Rabs (0 - 0)) with 0 by (rewrite Rminus_0_r, Rabs_R0; reflexivity). destruct (rmin_cases (2 * PI - 0 + 0) (2 * PI - 0 + 0)) as [[? ->]|[? ->]]; [|lra]. destruct (rmin_cases (2 * PI - 0 + 0) 0) as [[? ->]|[? ->]]; lra. }
    rewrite C. destruct (Rle_dec _ _) as [L|L]; [reflexivity|]. exfalso. apply L. nra.
  - cbn [value batch_of sb_tracks map]. unfold th_in, th_out, ph_in, ph_out. change (flip_tracks down_then_x) with (ftrack (0, 0, -1) (0, 0, 1), ftrack (0, 1, -1) (0, 0, 0)). cbn [fst snd ftrack t_vec]. rewrite T1, T3. cbn [vx vy fv].
    rewrite P00, P01, dtheta_dphi_fin.
    assert (C : dphi0 0 (PI / 2) = PI / 2). { rewrite <- (circ_dphi 0 (PI / 2)). unfold circ. rewrite (Rabs_left (0 - PI / 2)) by lra. destruct (rmin_cases (2 * PI - 0 + PI / 2) (2 * PI - PI / 2 + 0)) as [[? ->]|[? ->]]; [lra|]. destruct (rmin_cases (2 * PI - PI / 2 + 0) (- (0 - PI / 2))) as [[? ->]|[? ->]]; lra. }
    rewrite C. destruct (Rle_dec _ _); cbn [snd]; [reflexivity|]. do 3 f_equal. lra.
Qed.
Print Assumptions C110_vertical_refuted.

(* C110. Hits listed in another order give a track on the same line. *)
Theorem C110_order :
  forall lw lw' hs hs', Permutation hs hs' -> (2 <= length hs)%nat ->
  (forall h, In h hs -> fit_ok (h_x h) (u_x h) /\ fit_ok (h_y h) (u_y h)) -> two_heights (used_x hs) -> two_heights (used_y hs) ->
  exists t t', trajectory lw (map hit_xyz hs) (map hit_unc hs) = Ok t /\ trajectory lw' (map hit_xyz hs') (map hit_unc hs') = Ok t' /\ same_line t t'.
Proof. exact fit_order. Qed.
Print Assumptions C110_order.

(* C110. Only the ratios of the uncertainties matter: a factor common to all of them changes nothing. *)
Theorem C110_units :
  forall lw lw' k hs, 0 < k -> (2 <= length hs)%nat -> (forall h, In h hs -> same_use k (u_x h) /\ same_use k (u_y h)) ->
  (forall h, In h hs -> fit_ok (h_x h) (u_x h) /\ fit_ok (h_y h) (u_y h)) -> two_heights (used_x hs) -> two_heights (used_y hs) ->
  exists t, trajectory lw (map hit_xyz hs) (map hit_unc hs) = Ok t /\ trajectory lw' (map hit_xyz (map (coarser k) hs)) (map hit_unc (map (coarser k) hs)) = Ok t.
Proof. exact fit_units. Qed.
Print Assumptions C110_units.

(* C110. If the first two hits of a side are at the same height, the muon is lost, whatever its other hits are: the
   direction of the track is the difference of the points of the fitted line at these two heights. *)
Theorem C110_same_height :
  forall gen lw lw' zr n m ts, tracks1 gen lw n m = Ok ts ->
  level (firstn n (if gen then mh_gen m else mh_reco m)) \/ level (skipn n (if gen then mh_gen m else mh_reco m)) -> keep1 gen lw' zr m ts = false.
Proof. exact keep_level. Qed.
Print Assumptions C110_same_height.

(* a muon coming straight down through three panels at the given heights and leaving at 45 degrees through two *)
Definition muon_through (zs : list R) : mhits :=
  let hs := map (fun z => fv (0, 0, z)) zs ++ [fv (0, 0, -1); fv (1, 0, -2)] in MH hs hs (map (fun _ => fv (1, 1, 1)) hs) (map (fun _ => Fin 1) hs).

(* C110. So moving the first panel down to the height of the second loses a muon, although the hits of the first two panels
   and the third still determine its line. *)
Theorem C110_same_height_refuted :
  exists lw zr ts ts', tracks1 true lw 3 (muon_through [4; 3; 2]) = Ok ts /\ keep1 true lw zr (muon_through [4; 3; 2]) ts = true
    /\ tracks1 true lw 3 (muon_through [3; 3; 2]) = Ok ts' /\ keep1 true lw zr (muon_through [3; 3; 2]) ts' = false.
Proof.
  set (up := fun z => Hit (Fin 0) (Fin 0) z (Fin 1) (Fin 1) (Fin 1)).
  assert (B75 : 1 < 2 ^ 75) by (apply Rlt_pow_R1; [lra|lia]).
  assert (U : forall a z, used1 (Fin a) z (Fin 1) = [(a, z, 1)]) by (intros; unfold used1; destruct (Rlt_dec 1 (2 ^ 75)); [reflexivity|lra]).
  assert (F : forall a, fit_ok (Fin a) (Fin 1)) by (intro a; split; [discriminate|]; right; exists 1; split; [reflexivity|]; split; [lra|right; exists a; reflexivity]).
  assert (A : forall z0 z1, z0 <> 2 -> trajectory (1, 1) [fv (0, 0, z0); fv (0, 0, z1); fv (0, 0, 2)] [fv (1, 1, 1); fv (1, 1, 1); fv (1, 1, 1)] = Ok (track_on 0 0 0 0 z0 z1)).
  { intros z0 z1 D. apply (fit_exact (1, 1) (up z0) (up z1) [up 2] 0 0 0 0).
    - intros h [<-|[<-|[<-|[]]]]; split; apply F.
    - unfold used_x. cbn [flat_map up h_x h_y h_z u_x]. rewrite !U. exists (0, z0, 1), (0, 2, 1). split; [left; reflexivity|]. split; [do 2 right; left; reflexivity|exact D].
    - unfold used_y. cbn [flat_map up h_x h_y h_z u_y]. rewrite !U. exists (0, z0, 1), (0, 2, 1). split; [left; reflexivity|]. split; [do 2 right; left; reflexivity|exact D].
    - unfold used_x. cbn [flat_map up h_x h_y h_z u_x]. rewrite !U. intros x z s [E|[E|[E|[]]]]; injection E as <- <- <-; ring.
    - unfold used_y. cbn [flat_map up h_x h_y h_z u_y]. rewrite !U. intros x z s [E|[E|[E|[]]]]; injection E as <- <- <-; ring. }
  assert (B : trajectory (1, 1) [fv (0, 0, -1); fv (1, 0, -2)] [fv (1, 1, 1); fv (1, 1, 1)] = Ok (track_on (-1) (-1) 0 0 (-1) (-2))).
  { apply (fit_exact (1, 1) (up (-1)) (Hit (Fin 1) (Fin 0) (-2) (Fin 1) (Fin 1) (Fin 1)) [] (-1) (-1) 0 0).
    - intros h [<-|[<-|[]]]; split; apply F.
    - unfold used_x. cbn [flat_map up h_x h_y h_z u_x]. rewrite !U. exists (0, -1, 1), (1, -2, 1). split; [left; reflexivity|]. split; [right; left; reflexivity|cbn; lra].
    - unfold used_y. cbn [flat_map up h_x h_y h_z u_y]. rewrite !U. exists (0, -1, 1), (0, -2, 1). split; [left; reflexivity|]. split; [right; left; reflexivity|cbn; lra].
    - unfold used_x. cbn [flat_map up h_x h_y h_z u_x]. rewrite !U. intros x z s [E|[E|[]]]; injection E as <- <- <-; ring.
    - unfold used_y. cbn [flat_map up h_x h_y h_z u_y]. rewrite !U. intros x z s [E|[E|[]]]; injection E as <- <- <-; ring. }
  assert (T : forall z0 z1, z0 <> 2 -> tracks1 true (1, 1) 3 (muon_through [z0; z1; 2]) = Ok (track_on 0 0 0 0 z0 z1, track_on (-1) (-1) 0 0 (-1) (-2))).
  { intros z0 z1 D. unfold tracks1, muon_through. cbn [mh_gen mh_reco map app used_uncs firstn skipn]. change (V3 (Fin 1) (Fin 1) (Fin 1)) with (fv (1, 1, 1)). rewrite (A z0 z1 D). cbn [bind]. rewrite B. reflexivity. }
  exists (1, 1), (0, 1). eexists. eexists. split; [apply T; lra|]. split; [|split; [apply T; lra|]].
  - apply keep_usable. pose proof small_angle as [K1 K2].
    assert (SN : sin (1 / 100000) < 1 / 100000) by (apply sin_lt_x; lra).
    assert (St : forall x, 0 <= x <= 1 -> steep (x, 0, -1)).
    { intros x Hx. unfold steep, z3. cbn [snd]. assert (norm3 (x, 0, -1) <= 2). { unfold norm3. rewrite <- (sqrt_square 2) by lra. apply sqrt_le_1_alt. cbn. nra. } assert (0 <= norm3 (x, 0, -1)) by apply sqrt_pos. assert (0 < sin (1 / 100000)) by (apply sin_gt_0; lra). nra. }
    exists (0, 0, -1), (0, 0, 4), (1, 0, -1), (0, 0, -1). split; [unfold track_on, ftrack; repeat (f_equal; try ring)|]. split; [apply St; lra|]. split; [apply St; lra|].
    split; [intros s t E; cbn in E; injection E as E1 E2; lra|]. split; [exists 3; unfold near, on_line, z3; cbn; lra|]. split; [exists (-1); unfold near, on_line, z3; cbn; lra|].
    intros u Hu. unfold used_uncs, muon_through in Hu. cbn [mh_gen map app] in Hu. repeat (destruct Hu as [<-|Hu]; [cbn [vx vy xlt]; split; apply Rltb_true; lra|]). contradiction.
  - apply (C110_same_height true (1, 1) (1, 1) (0, 1) 3 _ _ (T 3 3 ltac:(lra))). left. exists (fv (0, 0, 3)), (fv (0, 0, 3)), [fv (0, 0, 2)], 3. split; [reflexivity|]. split; reflexivity.
Qed.
Print Assumptions C110_same_height_refuted.

(* hits not on a line, of different quality, with one missed panel *)
Definition sample_hits : list hit_in :=
  [Hit (Fin 1) (Fin 2) 3 (Fin 1) (Fin 2) (Fin 0); Hit PInf (Fin 7) 2 PInf PInf NaN; Hit (Fin 0) (Fin 2) 1 (Fin 3) (Fin 1) (Fin 0); Hit (Fin 5) (Fin 4) 0 (Fin 1) (Fin 1) (Fin 0)].
Example C110_case :
  (forall h, In h sample_hits -> fit_ok (h_x h) (u_x h) /\ fit_ok (h_y h) (u_y h)) /\ two_heights (used_x sample_hits) /\ two_heights (used_y sample_hits)
  /\ (forall h, In h sample_hits -> same_use 2 (u_x h) /\ same_use 2 (u_y h)).
Proof.
  assert (B75 : 16 < 2 ^ 75). { replace 16 with (2 ^ 4) by lra. apply Rlt_pow; [lra|lia]. }
  assert (U : forall a z s, s < 16 -> used1 (Fin a) z (Fin s) = [(a, z, s)]) by (intros; unfold used1; destruct (Rlt_dec s (2 ^ 75)); [reflexivity|lra]).
  assert (F : forall a s, 0 < s -> fit_ok (Fin a) (Fin s)) by (intros a s P; split; [discriminate|]; right; exists s; split; [reflexivity|]; split; [exact P|right; exists a; reflexivity]).
  assert (S : forall s, s < 8 -> same_use 2 (Fin s)). { intros s L r E. injection E as <-. split; intro; lra. }
  split; [|split; [|split]].
  - intros h [<-|[<-|[<-|[<-|[]]]]]; cbn [h_x h_y u_x u_y]; try (split; apply F; lra). split; (split; [discriminate|left; reflexivity]).
  - exists (1, 3, 1), (5, 0, 1). split; [|split; [|cbn; lra]]; unfold used_x, sample_hits; cbn [flat_map h_x h_z u_x]; rewrite !U by lra; cbn; auto.
  - exists (2, 3, 2), (4, 0, 1). split; [|split; [|cbn; lra]]; unfold used_y, sample_hits; cbn [flat_map h_y h_z u_y]; rewrite !U by lra; cbn; auto.
  - intros h [<-|[<-|[<-|[<-|[]]]]]; cbn [u_x u_y]; try (split; apply S; lra). split; intros r E; discriminate.
Qed.
Example C110_scatters_case : exists c, sound_scatters (batch_of (ftrack (1, 0, -1) (0, 0, 1), ftrack (0, 1, -1) (0, 0, 0)) c)
  /\ Forall not_vertical (sb_tracks (batch_of (ftrack (1, 0, -1) (0, 0, 1), ftrack (0, 1, -1) (0, 0, 0)) c)).
Proof.
  assert (N : not_parallel (1, 0, -1) (0, 1, -1)). { intros s t E. cbn in E. injection E as E1 E2. lra. }
  destruct (coefs_fin (1, 0, -1) (0, 0, 1) (0, 1, -1) (0, 0, 0) (cross_nonzero _ _ N)) as (c0 & c1 & c2 & E & _). exists (c0, c1, c2). split.
  - constructor; [|constructor]. exists (1, 0, -1), (0, 0, 1), (0, 1, -1), (0, 0, 0). unfold z3. cbn [fst snd]. split; [reflexivity|]. split; [lra|]. split; [lra|]. split; [exact N|exact E].
  - constructor; [|constructor]. split; [left|right]; cbn; intro K; injection K; lra.
Qed.
