(* C105: without noise the scatter batch of recorded hits is that of the true hits of the muons that go through every panel. *)
From Coq Require Import Lia Lra Psatz.
From Verif Require Import Base.Trig Base.Masks Model.Volume Model.Scatter Spec.ListSpec Spec.MuonSpec Spec.AngleSpec Spec.LayerSpec Spec.VolumeSpec Spec.ScatterSpec Spec.EndToEndSpec.
From Verif Require Import Proofs.MuonConserve Proofs.TrueTrack Proofs.EndToEnd Proofs.EndToEndCase Proofs.NoNoise Proofs.ScatterBatchP.
Open Scope R_scope.
Open Scope string_scope.
Open Scope list_scope.

(* C105. A volume as in C102, evaluated (not trained) with panels that model the validation realistically, and all draws of the position noise zero.  A
   ScatterBatch is made of the recorded hits.  A muon is used exactly if it is clear and goes through every panel above on its way in and through every panel
   below on its way out (of the volume V' with the budget assigned), and entry i of the batch tells how the i-th used muon came in and went out: not biased by
   the resolutions and efficiencies of the panels. *)
Theorem C105_no_noise :
  forall argsort o V As Ps Bs cs V' b1 lw zr b2 sb za0 za1 ra zb0 zb1 rb,
  is_argsort argsort -> v_layers V = map LDet As ++ map LPass Ps ++ map LDet Bs ->
  (forall D, In D As -> dl_pos D = "above") -> (forall D, In D Bs -> dl_pos D = "below") -> (forall L, In L Ps -> passive_ok L) ->
  hit_heights "above" (v_layers V) = za0 :: za1 :: ra -> za1 < za0 ->
  hit_heights "below" (v_layers V) = zb0 :: zb1 :: rb -> zb1 < zb0 ->
  (forall D P, In (LDet D) (v_layers V) -> In P (dl_panels D) -> pn_real P = true /\ 1 / 10000000000 < pn_res P /\ 1 / 1000000000000 < pn_eff P) ->
  (forall k j i, vr_det o k j i = (0, 0)) ->
  (forall c, In c cs -> sound (g_mu c)) ->
  volume_forward argsort false o V (Batch (map g_mu cs) None [] []) = Some (Ok (V', b1)) ->
  scatter_batch false lw zr b1 = Ok (b2, sb) ->
  exists left outs keep,
    len left = len cs /\ len outs = len (select left cs) /\ b_muons b1 = map g_mu outs
    /\ (forall i c0 c1, nth_error (select left cs) i = Some c0 -> nth_error outs i = Some c1 ->
         downwards c1 /\ g_p c1 = g_p c0 /\ exists k, nth_error keep i = Some k
           /\ (k = true <-> clear lw zr c0 c1 /\ through_all "above" (v_layers V') c0 /\ through_all "below" (v_layers V') c1))
    /\ len keep = len outs /\ b_muons b2 = map g_mu (select keep outs) /\ len (sb_tracks sb) = len (select keep outs)
    /\ forall i c0 c1, nth_error (select keep (select left cs)) i = Some c0 -> nth_error (select keep outs) i = Some c1 -> tells zr sb i c0 c1.
Proof. exact no_noise. Qed.
Print Assumptions C105_no_noise.

Lemma tan1 : 0 < tan 1 < 2.
Proof.
  pose proof one_below as OB. split; [apply tan_gt_0; lra|]. assert (C : 1 / 2 < cos 1).
  { rewrite <- cos_PI3. apply cos_decreasing_1; pose proof PI2_3_2; unfold PI2 in *; lra. }
  assert (S : sin 1 <= 1) by apply SIN_bound. unfold tan. apply (Rmult_lt_reg_r (cos 1)); [lra|]. unfold Rdiv. rewrite Rmult_assoc, Rinv_l, Rmult_1_r by lra. lra.
Qed.

(* two muons turned by one radian in a passive layer, two panels of 4 m x 4 m above and two below, no noise: the hypotheses hold, the volume and the batch are
   made without error, and both muons are used *)
Example C105_case : forall argsort, is_argsort argsort ->
  (forall D P, In (LDet D) (v_layers e_volume) -> In P (dl_panels D) -> pn_real P = true /\ 1 / 10000000000 < pn_res P /\ 1 / 1000000000000 < pn_eff P)
  /\ (forall k j i, vr_det e_rng k j i = (0, 0))
  /\ exists b1 b2 sb, volume_forward argsort false e_rng e_volume (Batch (map g_mu [e_muon; e_muon]) None [] []) = Some (Ok (e_volume, b1))
    /\ scatter_batch false (1, 1) (2, 3) b1 = Ok (b2, sb) /\ len (sb_tracks sb) = 2%nat.
Proof.
  intros argsort Ha.
  assert (Hg : forall D P, In (LDet D) (v_layers e_volume) -> In P (dl_panels D) -> pn_real P = true /\ 1 / 10000000000 < pn_res P /\ 1 / 1000000000000 < pn_eff P).
  { intros D P [E|[E|[E|[]]]] HP; try discriminate E; injection E as <-; destruct HP as [<-|[<-|[]]]; cbn; (split; [reflexivity|lra]). }
  split; [exact Hg|]. split; [reflexivity|]. pose proof one_below as OB. pose proof tan1 as T1.
  destruct (e_run argsort false Ha) as (b1 & E1 & M1). destruct e_heights as [HA HB].
  destruct (scatter_after_volume false (1, 1) (2, 3) argsort false e_rng e_volume (map g_mu [e_muon; e_muon]) e_volume b1 Ha) as (b2 & sb & E2); auto.
  { cbn [map]. repeat (constructor; [apply e_sound|]). constructor. }
  { intros L [H|[H|[H|[]]]]; try discriminate. injection H as <-. apply e_pass_ok. }
  { rewrite HA. cbn. lia. } { rewrite HB. cbn. lia. } { rewrite M1. cbn. lia. }
  exists b1, b2, sb. split; [auto|]. split; [auto|].
  destruct (C105_no_noise argsort e_rng e_volume [e_above] [e_pass] [e_below] [e_muon; e_muon] e_volume b1 (1, 1) (2, 3) b2 sb (15/4) (13/4) [] (7/4) (5/4) [])
    as (left & outs & keep & L1 & L2 & L3 & Each & L4 & L5 & L6 & _); auto; try lra.
  { intros D [<-|[]]. reflexivity. } { intros D [<-|[]]. reflexivity. } { intros L [<-|[]]. apply e_pass_ok. }
  { intros c [<-|[<-|[]]]; apply e_sound. }
  rewrite M1 in L3. destruct (moved e_out 1) as (co & Eo & So). { unfold downwards, e_out. cbn. lra. }
  destruct outs as [|o1 [|o2 [|]]]; try discriminate. cbn [map] in L3. rewrite Eo in L3.
  assert (Do : downwards e_out) by (unfold downwards, e_out; cbn; lra).
  assert (G : forall o, In o [o1; o2] -> clear (1, 1) (2, 3) e_muon o /\ through_all "above" (v_layers e_volume) e_muon /\ through_all "below" (v_layers e_volume) o).
  { intros o Ho. destruct (g_mu_line o co) as (B1 & B2 & B3).
    { assert (E3 : g_mu co = g_mu o1) by congruence. assert (E4 : g_mu co = g_mu o2) by congruence. destruct Ho as [<-|[<-|[]]]; auto. }
    destruct So as (F1 & F2 & _ & F4). split; [apply e_clear; [rewrite B1, F1; reflexivity|rewrite B2, F2; reflexivity|intro z; rewrite B3; apply F4]|]. split.
    - intros D P [E|[E|[E|[]]]] HE HP; try discriminate E; injection E as <-; [|discriminate HE].
      apply through_covers; [unfold downwards, e_muon; cbn; lra|]. unfold covers, px, py, span_x, span_y, e_muon. destruct HP as [<-|[<-|[]]]; cbn; rewrite tan_0; lra.
    - intros D P [E|[E|[E|[]]]] HE HP; try discriminate E; injection E as <-; [discriminate HE|].
      assert (Dn : downwards o) by (unfold downwards; rewrite B1, F1; exact Do).
      apply through_covers; [exact Dn|].
      assert (X : px o (pn_z P) = px e_out (pn_z P) /\ py o (pn_z P) = py e_out (pn_z P)).
      { assert (Q : mu3 (at_height o (pn_z P)) = mu3 (at_height e_out (pn_z P))) by (rewrite B3, F4; reflexivity). rewrite !at_line in Q by auto. split; congruence. }
      destruct X as [-> ->]. pose proof (COS_bound e_ph) as Bc. pose proof (SIN_bound e_ph) as Bs.
      unfold covers, px, py, span_x, span_y. destruct HP as [<-|[<-|[]]]; cbn [e_out e_panel g_x g_y g_z g_th g_ph pn_x pn_y pn_z pn_sx pn_sy pn_scale];
        assert (-2 < tan 1 * cos e_ph < 2) by (split; nra); assert (-2 < tan 1 * sin e_ph < 2) by (split; nra); lra. }
  destruct left as [|[|] [|[|] [|]]]; try discriminate. cbn [select] in Each.
  destruct (Each 0%nat e_muon o1 eq_refl eq_refl) as (_ & _ & k1 & K1 & W1). destruct (Each 1%nat e_muon o2 eq_refl eq_refl) as (_ & _ & k2 & K2 & W2).
  assert (k1 = true) as -> by (apply W1, G; left; auto). assert (k2 = true) as -> by (apply W2, G; right; left; auto).
  destruct keep as [|? [|? [|]]]; try discriminate. cbn [nth_error] in K1, K2. injection K1 as ->. injection K2 as ->. exact L6.
Qed.
