(* C102: from muons through the volume to the scatter batch of their true hits. *)
From Coq Require Import Lia Lra Psatz.
From Verif Require Import Base.Masks Model.Volume Model.Scatter Spec.ListSpec Spec.MuonSpec Spec.AngleSpec Spec.LayerSpec Spec.VolumeSpec Spec.ScatterSpec Spec.EndToEndSpec Proofs.MuonConserve Proofs.EndToEnd Proofs.EndToEndCase.
Open Scope R_scope.
Open Scope string_scope.
Open Scope list_scope.

(* C102. Detector layers above, passive layers, detector layers below; the first two true hits of either group at different heights.  Any muons go
   through the volume (left: who gets to the end; outs: how those leave it), and a GenScatterBatch is made of the result.  A muon is used exactly if
   it is clear, and entry i of the batch tells how the i-th used muon came in and how that same muon went out. *)
Theorem C102_scatter_tells :
  forall argsort tr o V As Ps Bs cs V' b1 lw zr b2 sb za0 za1 ra zb0 zb1 rb,
  is_argsort argsort -> v_layers V = map LDet As ++ map LPass Ps ++ map LDet Bs ->
  (forall D, In D As -> dl_pos D = "above") -> (forall D, In D Bs -> dl_pos D = "below") -> (forall L, In L Ps -> passive_ok L) ->
  hit_heights "above" (v_layers V) = za0 :: za1 :: ra -> za1 < za0 ->
  hit_heights "below" (v_layers V) = zb0 :: zb1 :: rb -> zb1 < zb0 ->
  (forall c, In c cs -> sound (g_mu c)) ->
  volume_forward argsort tr o V (Batch (map g_mu cs) None [] []) = Some (Ok (V', b1)) ->
  scatter_batch true lw zr b1 = Ok (b2, sb) ->
  exists left outs keep,
    len left = len cs /\ len outs = len (select left cs) /\ b_muons b1 = map g_mu outs
    /\ (forall i c0 c1, nth_error (select left cs) i = Some c0 -> nth_error outs i = Some c1 ->
         downwards c1 /\ g_p c1 = g_p c0 /\ exists k, nth_error keep i = Some k /\ (k = true <-> clear lw zr c0 c1))
    /\ len keep = len outs /\ b_muons b2 = map g_mu (select keep outs) /\ len (sb_tracks sb) = len (select keep outs)
    /\ forall i c0 c1, nth_error (select keep (select left cs)) i = Some c0 -> nth_error (select keep outs) i = Some c1 -> tells zr sb i c0 c1.
Proof. exact end_to_end. Qed.
Print Assumptions C102_scatter_tells.

(* two muons turned by one radian in a passive layer of one voxel, two panels above and two below: the hypotheses hold, the volume and the scatter
   batch are made without error, and both muons are used *)
Example C102_case : forall argsort tr, is_argsort argsort ->
  (v_layers e_volume = map LDet [e_above] ++ map LPass [e_pass] ++ map LDet [e_below] /\ dl_pos e_above = "above" /\ dl_pos e_below = "below" /\ passive_ok e_pass
   /\ hit_heights "above" (v_layers e_volume) = [15/4; 13/4] /\ hit_heights "below" (v_layers e_volume) = [7/4; 5/4] /\ sound (g_mu e_muon))
  /\ exists b1 b2 sb, volume_forward argsort tr e_rng e_volume (Batch (map g_mu [e_muon; e_muon]) None [] []) = Some (Ok (e_volume, b1))
    /\ scatter_batch true (1, 1) (2, 3) b1 = Ok (b2, sb) /\ len (sb_tracks sb) = 2%nat.
Proof.
  intros argsort tr Ha. split; [|apply e_case; auto]. destruct e_heights. pose proof e_pass_ok. pose proof e_sound. repeat (split; [auto; reflexivity|]). auto.
Qed.

(* C102. A beam of parallel muons of which none is deflected gives an empty batch: nothing is learnt from muons that show that a volume is empty. *)
Theorem C102_nothing_deflected :
  forall argsort tr o V As Ps Bs cs V' b1 lw zr b2 sb za0 za1 ra zb0 zb1 rb th ph,
  is_argsort argsort -> v_layers V = map LDet As ++ map LPass Ps ++ map LDet Bs ->
  (forall D, In D As -> dl_pos D = "above") -> (forall D, In D Bs -> dl_pos D = "below") -> (forall L, In L Ps -> passive_ok L) ->
  hit_heights "above" (v_layers V) = za0 :: za1 :: ra -> za1 < za0 ->
  hit_heights "below" (v_layers V) = zb0 :: zb1 :: rb -> zb1 < zb0 ->
  (forall c, In c cs -> sound (g_mu c) /\ g_th c = th /\ g_ph c = ph) ->
  volume_forward argsort tr o V (Batch (map g_mu cs) None [] []) = Some (Ok (V', b1)) ->
  (forall u, In u (b_muons b1) -> mth u = Fin th /\ mph u = Fin ph) ->
  scatter_batch true lw zr b1 = Ok (b2, sb) ->
  b_muons b2 = [] /\ sb_tracks sb = [].
Proof.
  intros until ph. intros H1 H2 H3 H4 H5 H6 H7 H8 H9 H10 H11 N H12.
  destruct (end_to_end argsort tr o V As Ps Bs cs V' b1 lw zr b2 sb za0 za1 ra zb0 zb1 rb) as (left & outs & keep & L1 & L2 & L3 & Each & L4 & L5 & L6 & _); auto.
  { intros c Hc. apply H10, Hc. }
  assert (K : forall k, In k keep -> k = false).
  { intros k Hk. apply In_nth_error in Hk as (i & Hk). pose proof (nth_error_Some keep i) as B. rewrite Hk in B. assert (Hi : (i < len keep)%nat) by (apply B; discriminate).
    destruct (nth_error outs i) as [c1|] eqn:E1; [|apply nth_error_None in E1; lia]. destruct (nth_error (select left cs) i) as [c0|] eqn:E0; [|apply nth_error_None in E0; lia].
    destruct (Each i c0 c1 E0 E1) as (_ & _ & k' & K1 & K2). assert (k' = k) as -> by congruence. destruct k; [|reflexivity]. exfalso.
    destruct (N (g_mu c1)) as [T P]. { rewrite L3. apply in_map, (nth_error_In _ i), E1. } apply nth_error_In, in_select in E0. destruct (H10 c0 E0) as (_ & T0 & P0).
    cbn [g_mu mth mph] in T, P. injection T as T. injection P as P. destruct (proj1 K2 eq_refl) as (_ & _ & NP & _).
    unfold heading in NP. rewrite T, P, T0, P0 in NP. destruct (NP 1 1 eq_refl). lra. }
  assert (S : forall (xs : list go_case), select keep xs = []).
  { clear -K. induction keep as [|k ks IH]; intros [|x xs]; cbn; auto. rewrite (K k) by (left; auto). apply IH. intros; apply K; right; auto. }
  rewrite S in L5, L6. split; [exact L5|]. destruct (sb_tracks sb); [reflexivity|discriminate].
Qed.
Print Assumptions C102_nothing_deflected.

(* the same detectors with nothing between them: two vertical muons get through, the batch is made without error and holds neither *)
Example C102_nothing_case : forall argsort tr, is_argsort argsort ->
  exists b1 b2 sb, volume_forward argsort tr e_rng f_volume (Batch (map g_mu [e_muon; e_muon]) None [] []) = Some (Ok (f_volume, b1))
    /\ len (b_muons b1) = 2%nat /\ scatter_batch true (1, 1) (2, 3) b1 = Ok (b2, sb) /\ b_muons b2 = [] /\ sb_tracks sb = [].
Proof.
  intros argsort tr Ha. destruct (f_case argsort tr Ha) as (b1 & b2 & sb & E & U & L & E2). exists b1, b2, sb. repeat (split; [assumption|]).
  apply (C102_nothing_deflected argsort tr e_rng f_volume [e_above] [] [e_below] [e_muon; e_muon] f_volume b1 (1, 1) (2, 3) b2 sb (15/4) (13/4) [] (7/4) (5/4) [] 0 0); auto; try lra.
  - intros D [<-|[]]. reflexivity.
  - intros D [<-|[]]. reflexivity.
  - intros L' [].
  - apply e_heights.
  - apply e_heights.
  - intros c [<-|[<-|[]]]; (split; [apply e_sound|split; reflexivity]).
Qed.
