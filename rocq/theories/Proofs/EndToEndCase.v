(* Two muons that are turned by one radian in a passive layer of one voxel, seen by two panels above and two below: the case of C102. *)
From Coq Require Import Psatz.
From Verif Require Import Base.Trig Base.Masks Model.Volume Model.Scatter Spec.ListSpec Spec.MuonSpec Spec.AngleSpec Spec.LayerSpec Spec.VolumeSpec Spec.ScatterSpec Spec.EndToEndSpec.
From Verif Require Import Proofs.MuonBatchP Proofs.MuonConserve Proofs.MuonAngles Proofs.LayerP Proofs.PdgP Proofs.LayerCross Proofs.PanelP Proofs.VolumeRun Proofs.ScatterBatchP Proofs.TrueTrack Proofs.EndToEnd.
Open Scope R_scope.
Open Scope string_scope.
Open Scope list_scope.

Definition e_panel (z : R) : panel := Panel Gauss 1000 (9/10) (1/2) (1/2) z 4 4 1 1 true.
Definition e_above : detlayer := Det "above" 1 1 4 1 [e_panel (13/4); e_panel (15/4)].
Definition e_below : detlayer := Det "below" 1 1 2 1 [e_panel (7/4); e_panel (5/4)].
Definition e_pass : passive := Passive 1 1 3 1 1 (Some [[1]]) "pdg".
Definition e_volume : volume := Volume [LDet e_above; LPass e_pass; LDet e_below] None [] None.
Definition e_muon : go_case := GC true (1/2) (1/2) 4 (Fin (136/10000)) 0 0 0.
Definition e_rng : vol_rng := VRng (fun _ => 1%nat) (fun _ _ _ => Draw 0 0 1 0) (fun _ _ _ => (0, 0)).

Lemma one_below : 3 / 2 < PI / 2.
Proof. pose proof PI2_3_2. unfold PI2 in *. lra. Qed.
Lemma one_open : open_half 1 /\ open_half 0 /\ open_half (-1).
Proof. pose proof one_below. unfold open_half. lra. Qed.

(* the muon at the top of the layer and, one step later, at its bottom *)
Definition e_top : muon := Mu (Fin (1/2)) (Fin (1/2)) (Fin 3) (Fin (136/10000)) (Fin 0) (Fin 0).
Definition e_ph : R := phi_of (-1) 0.
Definition e_out : go_case := GC true 1 (1/2) 2 (Fin (136/10000)) 1 e_ph 0.

Lemma e_step : step_of e_pass e_top = Fin 1.
Proof.
  unfold step_of, e_top, e_pass, pl_bot. cbn [mz mth pl_z pl_size pl_step]. change (xcos (Fin 0)) with (Fin (cos 0)). rewrite cos_0.
  unfold xsub; cbn [xadd xopp]. rewrite xdiv_fin by lra. cbn [xlt]. destruct (Rltb_spec ((3 + - (3 - 1)) / 1) 1); [exfalso; lra|reflexivity].
Qed.
Lemma e_lookup : lookup_x0 e_pass [[1]] e_top = Ok 1.
Proof. unfold lookup_x0, e_top, e_pass. cbn [mx my pl_size]. unfold abs2idx1. rewrite (Rfloor_unique (1 / 2 / 1) 0) by lra. reflexivity. Qed.
Lemma e_over : over e_pass e_top = true.
Proof.
  assert (e_top = g_mu (GC true (1/2) (1/2) 3 (Fin (136/10000)) 0 0 0)) as -> by reflexivity. apply over_case. unfold over_material, e_pass. cbn. lra.
Qed.

Lemma e_turned : step1 e_pass [[1]] true (Draw 0 0 1 0) e_top = g_mu e_out.
Proof.
  pose proof one_below as OB. pose proof one_open as (O1 & O0 & Om).
  assert (P0 : proj_x 0 0 = 0 /\ proj_y 0 0 = 0) by (unfold proj_x, proj_y; rewrite tan_0, !Rmult_0_l, atan_0; auto).
  assert (S12 : sqrt 12 <> 0) by (apply Rgt_not_eq, sqrt_lt_R0; lra).
  unfold step1. rewrite e_over.
  assert (SC : let s := scat_of e_pass [[1]] e_top (Draw 0 0 1 0) in
     s_dx_vol s = Fin (1/2) /\ s_dy_vol s = Fin 0 /\ s_dz_vol s = Fin 0 /\ s_dtheta_x_vol s = Fin (-1) /\ s_dtheta_y_vol s = Fin 0).
  { cbv zeta. unfold scat_of. rewrite e_step. unfold x0_of. rewrite e_lookup. unfold mu_theta_x, mu_theta_y. cbn [e_top mth mph mp].
    rewrite theta_x_fin, theta_y_fin by lra.
    destruct (pdg_displacement 1 0 0 (136 / 10000) 1 (Draw 0 0 1 0) ltac:(lra) ltac:(lra) ltac:(lra) (Fin (proj_x 0 0)) (Fin (proj_y 0 0))) as (E1 & E2 & E3 & E4 & E5).
    destruct (pdg_deflection 1 0 0 (136 / 10000) 1 (Draw 0 0 1 0) 1 0 ltac:(lra) ltac:(lra) ltac:(lra) ltac:(lra)) as [B1 B2]; auto.
    { rewrite width_one by lra. cbn [z2x]. rewrite Rmin_left; lra. } { rewrite width_one by lra. cbn [z2y]. rewrite Rmin_left; lra. }
    { unfold out2, rot_z. rewrite cos_0, sin_0. destruct (Reqb_spec 0 0); lra. }
    rewrite E1, E2, E3, B1, B2. unfold out0, out1, out2, rot_x, rot_y, rot_z, off_x, off_y. rewrite width_one by lra. cbn [z1x z1y z2x z2y].
    destruct (Reqb_spec 0 0); [|lra]. rewrite (proj1 P0), (proj2 P0), tan_0, sin_0, cos_0.
    split; [f_equal; field; auto|]. split; [f_equal; field; auto|]. split; [f_equal; ring|]. split; f_equal.
    - assert (X : forall q, q = tan (-1) -> atan q - 0 = -1) by (intros q ->; rewrite atan_tan by (unfold open_half in *; lra); lra).
      apply X. change (-1) with (Ropp 1). rewrite tan_neg. field.
    - assert (X : forall q, q = 0 -> atan q - 0 = 0) by (intros q ->; rewrite atan_0; ring). apply X. field. }
  destruct SC as (S1 & S2 & S3 & S4 & S5). unfold displaced, turned_by. rewrite S1, S2, S3, S4, S5.
  assert (M : go_d1 (Fin (pl_step e_pass)) (move1 (Some (Fin (1/2))) (Some (Fin 0)) (Some (Fin 0)) e_top) = Mu (Fin 1) (Fin (1/2)) (Fin 2) (Fin (136/10000)) (Fin 0) (Fin 0)).
  { unfold go_d1, move1, e_top, e_pass. cbn [mx my mz mp mth mph plus_opt pl_step xadd]. change (xsin (Fin 0)) with (Fin (sin 0)). change (xcos (Fin 0)) with (Fin (cos 0)).
    rewrite sin_0, cos_0. unfold xsub; cbn [xmul xadd xopp]. f_equal; f_equal; lra. }
  rewrite M. unfold pulled, e_pass, pl_bot. cbn [mz pl_z pl_size]. unfold xsub; cbn [xadd xopp xlt]. destruct (Rltb_spec (2 + - (3 - 1)) 0); [exfalso; lra|].
  unfold turn_xy1. cbn [mx my mz mp mth mph]. rewrite theta_x_fin, theta_y_fin by lra. rewrite (proj1 P0), (proj2 P0). cbn [plus_opt xadd].
  replace (0 + -1) with (-1) by ring. replace (0 + 0) with 0 by ring. rewrite theta_from_fin, phi_from_fin by (auto; lra).
  unfold g_mu, e_out. cbn [g_x g_y g_z g_p g_th g_ph]. fold e_ph. f_equal. f_equal. rewrite tan_0. change (-1) with (Ropp 1). rewrite tan_neg.
  replace (- tan 1 * - tan 1 + 0 * 0) with (tan 1 * tan 1) by ring. rewrite sqrt_square by (apply Rlt_le, tan_gt_0; lra). apply atan_tan. lra.
Qed.

Lemma e_layer {H} h hi : layer_forward (H := H) e_pass (fun _ _ => Draw 0 0 1 0) 1 (Batch [e_top; e_top] None h hi) = Some (Ok (Batch [g_mu e_out; g_mu e_out] None h hi)).
Proof.
  pose proof one_below as OB. unfold layer_forward. rewrite propagate_dz_all. cbn [b_muons map].
  assert (T0 : go_dz1 (xsub (mz e_top) (Fin (pl_z e_pass))) e_top = e_top).
  { unfold go_dz1, e_top, e_pass. cbn [mx my mz mp mth mph pl_z]. change (xsin (Fin 0)) with (Fin (sin 0)). change (xcos (Fin 0)) with (Fin (cos 0)).
    rewrite sin_0, cos_0. unfold xsub; cbn [xadd xopp]. rewrite xdiv_fin by lra. cbn [xmul xadd xopp]. f_equal; f_equal; lra. }
  rewrite T0. unfold with_muons; cbn [b_muons b_removed b_hits b_hist List.length]. change (all_true 2) with [true; true]. cbn [layer_loop existsb orb].
  rewrite (step_eq H e_pass [[1]] eq_refl (fun _ => Draw 0 0 1 0) [true; true] (Batch [e_top; e_top] None h hi) eq_refl eq_refl).
  2:{ intros u Hu. assert (u = e_top) as ->. { apply in_select in Hu. cbn in Hu. intuition. } unfold x0_of. rewrite e_lookup. reflexivity. }
  cbn [b_muons mapi nth map]. rewrite !e_turned. unfold remove_upwards_muons. cbn [with_muons b_muons map].
  assert (K : keep_down (g_mu e_out) = true) by (unfold keep_down, e_out; cbn [g_mu mth mph xlt xisnan negb g_th g_ph]; destruct (Rltb_spec 1 (PI / 2)); [reflexivity|lra]).
  rewrite K. match goal with |- context [filter_muons [true; true] ?b] => change (filter_muons [true; true] b) with (Ok b) end.
  assert (I : in_layer e_pass (g_mu e_out) = false).
  { unfold in_layer, e_pass, pl_bot, e_out. cbn [g_mu mz g_z pl_z pl_size xlt]. destruct (Rltb_spec (3 - 1) 2); [exfalso; lra|reflexivity]. }
  unfold with_muons. cbn [b_muons b_removed b_hits b_hist map layer_loop]. rewrite !I. cbn [existsb orb]. rewrite propagate_dz_all. cbn [b_muons map with_muons b_removed b_hits b_hist].
  assert (T1 : go_dz1 (xsub (mz (g_mu e_out)) (Fin (pl_bot e_pass))) (g_mu e_out) = g_mu e_out).
  { unfold xsub; cbn [g_mu mz xadd xopp]. fold (g_mu e_out). rewrite <- along_0, go_dz_along by (cbn; apply Rgt_not_eq, cos_gt_0; lra). apply along_eq. unfold pl_bot, e_pass, e_out; cbn [g_z pl_z pl_size]. field. cbn. apply Rgt_not_eq, cos_gt_0; lra. }
  rewrite T1. reflexivity.
Qed.

Lemma e_heights : hit_heights "above" (v_layers e_volume) = [15/4; 13/4] /\ hit_heights "below" (v_layers e_volume) = [7/4; 5/4].
Proof.
  unfold hit_heights, e_volume, e_above, e_below, sort_down, e_panel; cbn. destruct (Rle_dec (15 / 4) (13 / 4)); [lra|]. destruct (Rle_dec (5 / 4) (7 / 4)); [|lra]. auto.
Qed.
Lemma e_pass_ok : passive_ok e_pass.
Proof. split; [cbn; lra|]. split; [cbn; lra|]. intros rad row x E. injection E as <-. intros [<-|[]] [<-|[]]. lra. Qed.
Lemma e_sound : sound (g_mu e_muon).
Proof. pose proof one_below. exists (1/2), (1/2), 4, (136/10000), 0, 0. split; [reflexivity|]. lra. Qed.
Lemma e_spans z : spans_ok (e_panel z).
Proof. unfold spans_ok, span_x, span_y, e_panel. cbn. lra. Qed.

Lemma e_run argsort tr : is_argsort argsort ->
  exists b1, volume_forward argsort tr e_rng e_volume (Batch (map g_mu [e_muon; e_muon]) None [] []) = Some (Ok (e_volume, b1))
    /\ b_muons b1 = [at_height e_out 1; at_height e_out 1].
Proof.
  intro Ha. pose proof one_below as OB.
  assert (De : forall c, In c [e_muon; e_muon] -> downwards c) by (intros c [<-|[<-|[]]]; unfold downwards, e_muon; cbn; lra).
  assert (Do : forall c, In c [e_out; e_out] -> downwards c) by (intros c [<-|[<-|[]]]; unfold downwards, e_out; cbn; lra).
  destruct (det_no_error argsort e_above tr (vr_det e_rng 0) (Batch (map g_mu [e_muon; e_muon]) None [] []) Ha) as [ba Ea].
  { cbn [map b_muons]. repeat (constructor; [apply e_sound|]). constructor. } { cbn [e_above dl_panels]. repeat (constructor; [apply e_spans|]). constructor. }
  destruct (det_forward_spec argsort e_above tr (vr_det e_rng 0) [e_muon; e_muon] (Batch (map g_mu [e_muon; e_muon]) None [] []) ba Ha De eq_refl ltac:(constructor) Ea) as (Ma & Mr & Mh & Hh & _).
  assert (T : at_height e_muon (dl_z e_above - dl_size e_above) = e_top).
  { unfold at_height, along, e_muon, e_above, e_top, dir. cbn [g_x g_y g_z g_p g_th g_ph dl_z dl_size]. rewrite sin_0, cos_0. f_equal; f_equal; field. }
  cbn [map] in Ma. rewrite T in Ma. destruct ba as [ms rm hs hi]. cbn [b_muons b_removed b_hits b_hist] in *. subst ms rm hi.
  set (bp := snapshot_xyz (Batch [g_mu e_out; g_mu e_out] None hs ([] ++ [map (fun u => (mx u, my u, mz u)) [e_top; e_top]]))).
  destruct (det_no_error argsort e_below tr (vr_det e_rng 2) bp Ha) as [bb Eb].
  { assert (sound (g_mu e_out)) by (exists 1, (1/2), 2, (136/10000), 1, e_ph; split; [reflexivity|]; lra). cbn. repeat (constructor; auto). } { cbn [e_below dl_panels]. repeat (constructor; [apply e_spans|]). constructor. }
  destruct (det_forward_spec argsort e_below tr (vr_det e_rng 2) [e_out; e_out] bp bb Ha Do eq_refl Hh Eb) as (Mb & _).
  exists (snapshot_xyz bb). split.
  - unfold volume_forward, e_volume, assign_budget. cbn [v_budget v_layers cross_layers]. rewrite Ea.
    cbn [vr_pass vr_fuel e_rng]. unfold snapshot_xyz at 1. cbn [b_muons b_removed b_hits b_hist]. rewrite e_layer. fold bp. rewrite Eb. reflexivity.
  - cbn [snapshot_xyz b_muons]. rewrite Mb. cbn [map e_below dl_z dl_size]. replace (2 - 1) with 1 by ring. reflexivity.
Qed.

Lemma g_mu_line c c' : g_mu c = g_mu c' -> g_th c = g_th c' /\ g_ph c = g_ph c' /\ forall z, at_height c z = at_height c' z.
Proof.
  unfold g_mu. intro E. injection E as E1 E2 E3 E4 E5 E6. split; [auto|]. split; [auto|]. intro z. unfold at_height, along. rewrite E1, E2, E3, E4, E5, E6. reflexivity.
Qed.

Lemma e_clear c : g_th c = 1 -> g_ph c = e_ph -> (forall z, at_height c z = at_height e_out z) -> clear (1, 1) (2, 3) e_muon c.
Proof.
  intros T P A. pose proof one_below as OB. assert (D : downwards c) by (unfold downwards; rewrite T; lra).
  assert (S1 : 0 < sin 1) by (apply sin_gt_0; lra). assert (C1 : 0 < cos 1) by (apply cos_gt_0; lra).
  unfold clear. rewrite T. cbn [g_th e_muon fst snd]. rewrite cos_0.
  assert (X : forall a, -1 <= a <= 1 -> a < PI / 2 - 1 -> sin a < cos 1).
  { intros a B C. rewrite <- sin_shift. apply sin_increasing_1; lra. }
  split. { apply Rlt_le_trans with (sin (PI / 2)); [apply sin_increasing_1; lra|rewrite sin_PI2; lra]. }
  split; [apply X; lra|]. split; [|split].
  - intros s t E. unfold heading, direction, scale3 in E. rewrite T, P in E. cbn [g_th g_ph e_muon] in E. rewrite sin_0, cos_0 in E. injection E as E1 E2 E3.
    assert (Q : t * t * (sin 1 * sin 1) = 0).
    { replace (t * t * (sin 1 * sin 1)) with (Rsqr (t * (sin 1 * cos e_ph)) + Rsqr (t * (sin 1 * sin e_ph))) by (pose proof (sin2_cos2 e_ph) as Y; unfold Rsqr in *; nra).
      rewrite <- E1, <- E2. unfold Rsqr. ring. }
    assert (t = 0). { destruct (Rmult_integral _ _ Q) as [Q1|Q1]; [|exfalso; nra]. nra. }
    subst t. split; [|auto]. lra.
  - exists 1. unfold flight, on_line, place, heading, direction, add3, scale3, z3, near. cbn [g_x g_y g_z g_th g_ph e_muon fst snd]. rewrite sin_0, cos_0. lra.
  - destruct (on_flight c 2 D) as (s & E). exists s. rewrite A in E.
    assert (at_height e_out 2 = g_mu e_out) as H.
    { unfold at_height. rewrite <- (along_0 e_out). apply along_eq. unfold e_out; cbn [g_z g_th]. field. lra. }
    rewrite H in E. unfold mu3, g_mu, e_out, fv in E. cbn [mx my mz g_x g_y g_z] in E. destruct (flight c s) as [[x y] z]. injection E as <- <- <-.
    unfold z3, near. cbn [fst snd]. lra.
Qed.

Lemma e_case argsort tr : is_argsort argsort ->
  exists b1 b2 sb, volume_forward argsort tr e_rng e_volume (Batch (map g_mu [e_muon; e_muon]) None [] []) = Some (Ok (e_volume, b1))
    /\ scatter_batch true (1, 1) (2, 3) b1 = Ok (b2, sb) /\ len (sb_tracks sb) = 2%nat.
Proof.
  intro Ha. pose proof one_below as OB. destruct (e_run argsort tr Ha) as (b1 & E1 & M1). destruct e_heights as [HA HB].
  destruct (scatter_after_volume true (1, 1) (2, 3) argsort tr e_rng e_volume (map g_mu [e_muon; e_muon]) e_volume b1 Ha) as (b2 & sb & E2); auto.
  { cbn [map]. repeat (constructor; [apply e_sound|]). constructor. }
  { intros L [H|[H|[H|[]]]]; try discriminate. injection H as <-. apply e_pass_ok. }
  { rewrite HA. cbn. lia. } { rewrite HB. cbn. lia. } { rewrite M1. cbn. lia. }
  exists b1, b2, sb. split; [auto|]. split; [auto|].
  destruct (end_to_end argsort tr e_rng e_volume [e_above] [e_pass] [e_below] [e_muon; e_muon] e_volume b1 (1, 1) (2, 3) b2 sb (15/4) (13/4) [] (7/4) (5/4) [])
    as (left & outs & keep & L1 & L2 & L3 & Each & L4 & L5 & L6 & _); auto; try lra.
  { intros D [<-|[]]. reflexivity. } { intros D [<-|[]]. reflexivity. } { intros L [<-|[]]. apply e_pass_ok. }
  { intros c [<-|[<-|[]]]; apply e_sound. }
  rewrite M1 in L3. destruct (moved e_out 1) as (co & Eo & So). { unfold downwards, e_out. cbn. lra. }
  destruct outs as [|o1 [|o2 [|]]]; try discriminate. cbn [map] in L3. rewrite Eo in L3.
  assert (G : forall o, In o [o1; o2] -> clear (1, 1) (2, 3) e_muon o).
  { intros o Ho. destruct (g_mu_line o co) as (B1 & B2 & B3).
    - assert (E3 : g_mu co = g_mu o1) by congruence. assert (E4 : g_mu co = g_mu o2) by congruence. destruct Ho as [<-|[<-|[]]]; auto.
    - destruct So as (F1 & F2 & _ & F4). apply e_clear; [rewrite B1, F1; reflexivity|rewrite B2, F2; reflexivity|intro z; rewrite B3; apply F4]. }
  destruct left as [|[|] [|[|] [|]]]; try discriminate. cbn [select] in Each.
  destruct (Each 0%nat e_muon o1 eq_refl eq_refl) as (_ & _ & k1 & K1 & W1). destruct (Each 1%nat e_muon o2 eq_refl eq_refl) as (_ & _ & k2 & K2 & W2).
  assert (k1 = true) as -> by (apply W1, G; left; auto). assert (k2 = true) as -> by (apply W2, G; right; left; auto).
  destruct keep as [|? [|? [|]]]; try discriminate. cbn [nth_error] in K1, K2. injection K1 as ->. injection K2 as ->. exact L6.
Qed.

(* the same detectors with nothing between them *)
Definition f_volume : volume := Volume [LDet e_above; LDet e_below] None [] None.
Lemma f_case argsort tr : is_argsort argsort ->
  exists b1 b2 sb, volume_forward argsort tr e_rng f_volume (Batch (map g_mu [e_muon; e_muon]) None [] []) = Some (Ok (f_volume, b1))
    /\ (forall u, In u (b_muons b1) -> mth u = Fin 0 /\ mph u = Fin 0) /\ len (b_muons b1) = 2%nat
    /\ scatter_batch true (1, 1) (2, 3) b1 = Ok (b2, sb).
Proof.
  intro Ha. pose proof one_below as OB.
  assert (De : forall c, In c [e_muon; e_muon] -> downwards c) by (intros c [<-|[<-|[]]]; unfold downwards, e_muon; cbn; lra).
  destruct (det_no_error argsort e_above tr (vr_det e_rng 0) (Batch (map g_mu [e_muon; e_muon]) None [] []) Ha) as [ba Ea].
  { cbn [map b_muons]. repeat (constructor; [apply e_sound|]). constructor. } { cbn [e_above dl_panels]. repeat (constructor; [apply e_spans|]). constructor. }
  destruct (det_forward_spec argsort e_above tr (vr_det e_rng 0) [e_muon; e_muon] (Batch (map g_mu [e_muon; e_muon]) None [] []) ba Ha De eq_refl ltac:(constructor) Ea) as (Ma & _ & _ & Hh & _).
  destruct (moved e_muon (dl_z e_above - dl_size e_above)) as (c & Ec & Sc). { apply De; left; auto. }
  assert (Dc : forall c', In c' [c; c] -> downwards c') by (intros c' [<-|[<-|[]]]; apply (sl_down _ _ Sc), De; left; auto).
  assert (Sn : sound (g_mu c)).
  { destruct Sc as (T & P & Q & _). pose proof (Dc c (or_introl eq_refl)) as D. unfold downwards in D. exists (g_x c), (g_y c), (g_z c), (136/10000), (g_th c), (g_ph c).
    unfold g_mu. rewrite Q. split; [reflexivity|]. rewrite T. cbn. lra. }
  destruct (det_no_error argsort e_below tr (vr_det e_rng 1) (snapshot_xyz ba) Ha) as [bb Eb].
  { cbn [snapshot_xyz b_muons]. rewrite Ma. cbn [map]. rewrite Ec. repeat (constructor; auto). } { cbn [e_below dl_panels]. repeat (constructor; [apply e_spans|]). constructor. }
  destruct (det_forward_spec argsort e_below tr (vr_det e_rng 1) [c; c] (snapshot_xyz ba) bb Ha Dc) as (Mb & _).
  { cbn [snapshot_xyz b_muons]. rewrite Ma. cbn [map]. rewrite Ec. reflexivity. } { exact Hh. } { exact Eb. }
  assert (R : volume_forward argsort tr e_rng f_volume (Batch (map g_mu [e_muon; e_muon]) None [] []) = Some (Ok (f_volume, snapshot_xyz bb))).
  { unfold volume_forward, f_volume, assign_budget. cbn [v_budget v_layers cross_layers]. rewrite Ea. cbn [vr_pass vr_fuel e_rng]. rewrite Eb. reflexivity. }
  assert (U : forall u, In u (b_muons (snapshot_xyz bb)) -> mth u = Fin 0 /\ mph u = Fin 0).
  { cbn [snapshot_xyz b_muons]. rewrite Mb. destruct Sc as (T & P & _). intros u [<-|[<-|[]]]; unfold at_height, along; cbn [mth mph]; rewrite T, P; auto. }
  assert (L : len (b_muons (snapshot_xyz bb)) = 2%nat) by (cbn [snapshot_xyz b_muons]; rewrite Mb; reflexivity).
  destruct (scatter_after_volume true (1, 1) (2, 3) argsort tr e_rng f_volume (map g_mu [e_muon; e_muon]) f_volume (snapshot_xyz bb) Ha) as (b2 & sb & E2); auto.
  { cbn [map]. repeat (constructor; [apply e_sound|]). constructor. }
  { intros L' [H|[H|[]]]; discriminate. }
  { destruct e_heights as [HA _]. change (hit_heights "above" (v_layers f_volume)) with (hit_heights "above" (v_layers e_volume)). rewrite HA. cbn. lia. }
  { destruct e_heights as [_ HB]. change (hit_heights "below" (v_layers f_volume)) with (hit_heights "below" (v_layers e_volume)). rewrite HB. cbn. lia. }
  { rewrite L. lia. }
  exists (snapshot_xyz bb), b2, sb. auto.
Qed.
