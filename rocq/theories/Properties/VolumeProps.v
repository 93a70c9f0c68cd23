(* Properties C17-C23: panels, detector layers and volumes. *)
From Coq Require Import ZArith Psatz Permutation.
From Verif Require Import Model.Volume Spec.MuonSpec Spec.AngleSpec Spec.LayerSpec Spec.VolumeSpec.
From Verif Require Import Proofs.MuonBatchP Proofs.PanelP Proofs.PanelResp Proofs.VolumeP Proofs.VolumeRun.
Open Scope R_scope.
Open Scope string_scope.
Open Scope list_scope.

(* np.argsort is any function that sorts; one exists *)
Example argsort_case : is_argsort argsort_ins.
Proof. exact argsort_exists. Qed.

(* C17. One detector layer.  Muons flying downwards end at its bottom, on their straight line; no muon is removed and the
   history is kept.  For every panel, from the highest to the lowest, one tensor is appended to each of the four variables
   at the position of the layer: the true hits are the points where the straight line of each muon meets the height of the
   panel, and the other rows are what the panel reports for a muon at that point.  Nothing else is recorded. *)
Theorem C17_detector_layer :
  forall argsort D tr rng cs (b b' : batch (list xr)),
  is_argsort argsort -> (forall c, In c cs -> downwards c) ->
  b_muons b = map g_mu cs -> hits_ok (list xr) (List.length cs) (b_hits b) ->
  det_forward argsort D tr rng b = Ok b' ->
  b_muons b' = map (fun c => at_height c (dl_z D - dl_size D)) cs
  /\ b_removed b' = b_removed b /\ b_hist b' = b_hist b
  /\ hits_ok (list xr) (List.length cs) (b_hits b')
  /\ (forall p v, p <> dl_pos D \/ ~ In v hit_variables -> recorded p v (b_hits b') = recorded p v (b_hits b))
  /\ recorded (dl_pos D) "gen_xyz" (b_hits b')
     = recorded (dl_pos D) "gen_xyz" (b_hits b)
       ++ map (fun z => map (fun c => xyz (at_height c z)) cs) (sort_down (map pn_z (dl_panels D)))
  /\ exists ps, Permutation ps (dl_panels D) /\ map pn_z ps = sort_down (map pn_z (dl_panels D))
     /\ forall v, In v hit_variables -> exists ts,
        recorded (dl_pos D) v (b_hits b') = recorded (dl_pos D) v (b_hits b) ++ ts
        /\ Forall2 (fun t P => List.length t = List.length cs /\
             exists j, nth_error ps j = Some P /\
             forall i c, nth_error cs i = Some c -> exists q,
               hit1 P tr (rng j i) (mx (at_height c (pn_z P))) (my (at_height c (pn_z P))) = Ok q
               /\ assoc v [("reco_xyz", q_reco q); ("gen_xyz", q_gen q); ("unc_xyz", q_unc q); ("eff", q_eff q)] = nth_error t i) ts ps.
Proof. exact det_forward_spec. Qed.
Print Assumptions C17_detector_layer.

(* C17. A whole volume, whatever the order of its layers and panels and the random numbers: one snapshot per layer; at every
   detector position each surviving muon has exactly one hit per panel at that position, ordered by layer and from the
   highest panel to the lowest, and the z of each true and reconstructed hit is the z of its panel. *)
Theorem C17_one_hit_per_panel :
  forall argsort tr o V us V' b',
  is_argsort argsort -> Forall sound us -> (forall L, In (LPass L) (v_layers V) -> passive_ok L) ->
  volume_forward argsort tr o V (Batch us None [] []) = Some (Ok (V', b')) ->
  List.length (b_hist b') = List.length (v_layers V)
  /\ forall pos, let zs := hit_heights pos (v_layers V) in
     (zs = [] -> forall v, recorded pos v (b_hits b') = [])
     /\ (zs <> [] -> exists d, get_hits None None b' = Ok d
          /\ forall v, In v hit_variables -> exists rows, assoc2 pos v d = Some rows
             /\ List.length rows = List.length (b_muons b')
             /\ forall row, In row rows -> List.length row = List.length zs /\ (forall h, In h row -> List.length h = entries v)
                /\ (v = "reco_xyz" \/ v = "gen_xyz" -> map (fun h => nth_error h 2) row = map (fun z => Some (Fin z)) zs)).
Proof. exact volume_hits. Qed.
Print Assumptions C17_one_hit_per_panel.

(* C17. With loaded materials, panels of positive size and (if there is a budget) one weight per panel, crossing a volume
   raises no exception. *)
Theorem C17_no_exception :
  forall argsort tr o V us e,
  is_argsort argsort -> Forall sound us ->
  (forall L, In (LPass L) (v_layers V) -> 0 < pl_size L /\ 0 < pl_step L /\ material_ok L) ->
  Forall panel_ok (all_panels (v_layers V)) ->
  match v_budget V with None => True | Some c => 0 < c /\ List.length (v_weights V) = List.length (all_panels (v_layers V)) end ->
  volume_forward argsort tr o V (Batch us None [] []) <> Some (Err e).
Proof. exact volume_no_error. Qed.
Print Assumptions C17_no_exception.

(* a volume: one detector layer with a low and a high panel, a passive layer of one voxel, one detector layer below *)
Definition a_panel (z : R) : panel := Panel Gauss 1000 (9/10) (1/2) (1/2) z 1 1 1 1 true.
Definition small_layers : list layer :=
  [LDet (Det "above" 1 1 4 1 [a_panel (13/4); a_panel (15/4)]);
   LPass (Passive 1 1 3 1 (1 / 2) (Some [[1]]) "pdg");
   LDet (Det "below" 1 1 2 1 [a_panel (3/2)])].
Definition small_volume : volume := Volume small_layers (Some 5) [0; 1; -1] None.
Definition small_muon : go_case := GC true (1/2) (1/2) 4 (Fin 5) (1/10) 0 0.
Example C17_case :
  Forall sound [g_mu small_muon] /\ downwards small_muon
  /\ hits_ok (list xr) 1 []
  /\ (forall L, In (LPass L) (v_layers small_volume) -> 0 < pl_size L /\ 0 < pl_step L /\ material_ok L /\ passive_ok L)
  /\ Forall panel_ok (all_panels (v_layers small_volume))
  /\ List.length (v_weights small_volume) = List.length (all_panels (v_layers small_volume))
  /\ hit_heights "above" small_layers = [15/4; 13/4] /\ hit_heights "below" small_layers = [3/2].
Proof.
  pose proof PI2_3_2 as HPI. unfold PI2 in HPI.
  assert (material_ok (Passive 1 1 3 1 (1 / 2) (Some [[1]]) "pdg")) as Hm.
  { split; [reflexivity|]. exists 1%nat, 1%nat. cbn. split; [lra|]. split; [lra|]. split; [lra|]. split; [reflexivity|].
    split; [intros row [<-|[]]; reflexivity|]. intros row x [<-|[]] [<-|[]]. lra. }
  split; [constructor; [|constructor]; do 6 eexists; split; [reflexivity|]; cbn; lra|].
  split; [unfold downwards, small_muon; cbn [g_th]; lra|].
  split; [constructor|]. split.
  { cbn. intros L [H|[H|[H|[]]]]; try discriminate. injection H as <-. cbn. split; [lra|]. split; [lra|]. split; auto.
    split; [cbn; lra|]. split; [cbn; lra|]. apply LayerCross.material_positive; auto. }
  split; [repeat constructor; cbn; lra|]. split; [reflexivity|]. split; [|reflexivity].
  unfold hit_heights, small_layers, sort_down, a_panel; cbn. destruct (Rle_dec (15 / 4) (13 / 4)); [lra|reflexivity].
Qed.

(* C18. Evaluation mode with realistic validation, any smearing draws: a muon inside the panel gets a hit on the panel, the
   nominal uncertainty and efficiency; a muon outside gets no finite hit position, infinite uncertainty and zero efficiency.
   The true position is recorded unchanged. *)
Theorem C18_realistic_hits :
  forall P rng ms, pn_real P = true -> 0 < pn_res P -> 0 <= span_x P -> 0 <= span_y P ->
  (forall u, In u ms -> exists x y, mx u = Fin x /\ my u = Fin y) ->
  exists reco gen unc eff,
    panel_hits P false rng ms = Ok [("reco_xyz", reco); ("gen_xyz", gen); ("unc_xyz", unc); ("eff", eff)]
    /\ forall i u x y, nth_error ms i = Some u -> mx u = Fin x -> my u = Fin y ->
       exists a b w e, nth_error reco i = Some [a; b; Fin (pn_z P)] /\ nth_error gen i = Some [Fin x; Fin y; Fin (pn_z P)]
       /\ nth_error unc i = Some [w; w; Fin 0] /\ nth_error eff i = Some [e]
  /\ (pn_x P - span_x P / 2 <= x < pn_x P + span_x P / 2 /\ pn_y P - span_y P / 2 <= y < pn_y P + span_y P / 2 ->
      exists a' b', a = Fin a' /\ b = Fin b'
      /\ pn_x P - span_x P / 2 <= a' <= pn_x P + span_x P / 2 /\ pn_y P - span_y P / 2 <= b' <= pn_y P + span_y P / 2
      /\ w = Fin (1 / pn_res P) /\ e = Fin (pn_eff P))
  /\ (~ (pn_x P - span_x P / 2 <= x < pn_x P + span_x P / 2 /\ pn_y P - span_y P / 2 <= y < pn_y P + span_y P / 2) ->
      xisfin a = false /\ xisfin b = false /\ w = PInf /\ e = Fin 0).
Proof. exact realistic_hits. Qed.
Print Assumptions C18_realistic_hits.

(* C18. A panel can be built just if resolution, efficiency and smoothness are positive; otherwise ValueError.  It has what it was given; its cost is the budget if there is one,
   and its span is the given one if there is none. *)
Theorem C18_build :
  forall resp res eff x y z sx sy m2 budget real,
  let good := 0 < res /\ 0 < eff /\ match resp with Sig s => 0 < s | Gauss => True end in
  (~ good -> new_panel resp res eff x y z sx sy m2 budget real = Err ValueError) /\
  (good -> exists P, new_panel resp res eff x y z sx sy m2 budget real = Ok P
     /\ pn_resp P = resp /\ pn_res P = res /\ pn_eff P = eff /\ pn_x P = x /\ pn_y P = y /\ pn_z P = z /\ pn_sx P = sx /\ pn_sy P = sy /\ pn_m2 P = m2 /\ pn_real P = real
     /\ match budget with
        | None => span_x P = sx /\ span_y P = sy
        | Some b => 0 < m2 -> 0 < sx -> 0 < sy -> 0 <= b -> panel_cost P = b /\ span_x P * sy = span_y P * sx
        end).
Proof.
  intros resp res eff x y z sx sy m2 budget real good. unfold new_panel. split.
  - intros N. destruct (Rleb_spec res 0); [reflexivity|]. destruct (Rleb_spec eff 0); [reflexivity|]. destruct resp as [|s]; [exfalso; apply N; unfold good; repeat split; lra|].
    destruct (Rltb_spec 0 s); [|reflexivity]. exfalso. apply N. unfold good. repeat split; lra.
  - intros (A & B & C). destruct (Rleb_spec res 0); [lra|]. destruct (Rleb_spec eff 0); [lra|].
    set (Q := match budget with Some b => _ | None => _ end). exists Q. split; [destruct resp as [|s]; [reflexivity|destruct (Rltb_spec 0 s); [reflexivity|lra]]|].
    unfold Q. destruct budget as [b|]; cbn; do 10 (split; [reflexivity|]).
    + intros Hm Hx Hy Hb. split; [apply assigned_cost; [repeat split; assumption|exact Hb]|unfold span_x, span_y; cbn; ring].
    + unfold span_x, span_y. cbn. split; ring.
Qed.
Print Assumptions C18_build.

(* A panel of two square metres at unit cost, given a budget of eight, has twice the span; a negative resolution is refused. *)
Example C18_build_case :
  (exists P, new_panel (Sig 1) 1 1 0 0 0 1 2 1 (Some 8) false = Ok P /\ panel_cost P = 8 /\ span_x P * 2 = span_y P * 1)
  /\ new_panel (Sig 1) (-1) 1 0 0 0 1 2 1 (Some 8) false = Err ValueError.
Proof.
  split.
  - destruct (C18_build (Sig 1) 1 1 0 0 0 1 2 1 (Some 8) false) as [_ G]. destruct G as (P & E & G); [repeat split; lra|].
    exists P. split; [exact E|]. do 10 destruct G as [_ G]. apply G; lra.
  - apply (C18_build (Sig 1) (-1) 1 0 0 0 1 2 1 (Some 8) false). intros [H _]. lra.
Qed.

(* C18. The mask of a panel has the points of its rectangle, lower edges included, upper edges not; no point with a coordinate that is not a number. *)
Theorem C18_mask :
  forall P x y, panel_mask1 P x y = true <->
    exists x' y', x = Fin x' /\ y = Fin y' /\ pn_x P - span_x P / 2 <= x' < pn_x P + span_x P / 2 /\ pn_y P - span_y P / 2 <= y' < pn_y P + span_y P / 2.
Proof.
  intros P x y. unfold panel_mask1. rewrite !andb_true_iff. split.
  - intros [[[A B] C] D]. destruct x as [x| | |]; try discriminate. destruct y as [y| | |]; try discriminate. cbn in *.
    apply Rleb_true in A. apply Rltb_true in B. apply Rleb_true in C. apply Rltb_true in D. exists x, y. auto.
  - intros (x' & y' & -> & -> & [A B] & [C D]). cbn. rewrite !Rleb_true, !Rltb_true. auto.
Qed.
Print Assumptions C18_mask.

(* C18. Differentiable mode: on each axis the hit is displaced by the draw of that axis, divided by the resolution of that axis, and the
   uncertainty is the inverse of the same resolution; nothing is clamped to the panel. *)
Theorem C18_smeared_hits :
  forall P tr rng ms, tr || negb (pn_real P) = true -> resp_ok (pn_resp P) -> 0 < span_x P -> 0 < span_y P ->
  (forall u, In u ms -> exists x y, mx u = Fin x /\ my u = Fin y) ->
  exists reco gen unc eff,
    panel_hits P tr rng ms = Ok [("reco_xyz", reco); ("gen_xyz", gen); ("unc_xyz", unc); ("eff", eff)]
    /\ forall i u x y, nth_error ms i = Some u -> mx u = Fin x -> my u = Fin y ->
       exists rx ry e, 0 < rx /\ 0 < ry
       /\ (forall inside, get_resolution1 P tr inside (Fin x) (Fin y) = Ok (Fin rx, Fin ry) /\ get_efficiency1 P tr inside (Fin x) (Fin y) = Ok (Fin e))
       /\ nth_error reco i = Some [Fin (x + fst (rng i) / rx); Fin (y + snd (rng i) / ry); Fin (pn_z P)]
       /\ nth_error gen i = Some [Fin x; Fin y; Fin (pn_z P)]
       /\ nth_error unc i = Some [Fin (1 / rx); Fin (1 / ry); Fin 0] /\ nth_error eff i = Some [Fin e].
Proof. exact smeared_hits. Qed.
Print Assumptions C18_smeared_hits.

(* a muon on the panel, with a draw that would put the hit far away, and one off it *)
Example C18_case :
  let P := a_panel 2 in
  pn_real P = true /\ 0 < pn_res P /\ 0 <= span_x P /\ 0 <= span_y P
  /\ (pn_x P - span_x P / 2 <= 1/4 < pn_x P + span_x P / 2 /\ pn_y P - span_y P / 2 <= 1/4 < pn_y P + span_y P / 2)
  /\ ~ (pn_x P - span_x P / 2 <= 3 < pn_x P + span_x P / 2 /\ pn_y P - span_y P / 2 <= 1/4 < pn_y P + span_y P / 2)
  /\ hit1 P false (1000000, -1000000) (Fin (1/4)) (Fin (1/4))
     = Ok ([Fin 1; Fin 0; Fin 2], [Fin (1/4); Fin (1/4); Fin 2], [Fin (1/1000); Fin (1/1000); Fin 0], [Fin (9/10)]).
Proof.
  cbv zeta. unfold span_x, span_y, a_panel; cbn [pn_x pn_y pn_sx pn_sy pn_scale pn_real pn_res].
  repeat split; try lra. unfold hit1.
  replace (in_xy _ _ _) with true.
  2:{ symmetry. unfold in_xy, span_x, span_y; cbn. rewrite !andb_true_iff, !Rleb_true, !Rltb_true. lra. }
  unfold get_resolution1, get_efficiency1, span_x, span_y. cbn [pn_x pn_y pn_z pn_sx pn_sy pn_scale pn_real pn_res pn_eff orb negb andb bind fst snd].
  rewrite !xdiv_fin by lra. unfold xsub. cbn [xadd xopp]. rewrite !xclamp_fin. cbn [xadd].
  unfold Rclamp, Rmax, Rmin. repeat destruct (Rle_dec _ _); try lra.
  do 6 f_equal; try (f_equal; f_equal; lra).
Qed.

(* C19. Differentiable mode, Gaussian and sigmoid panels: at every point the resolution along each axis and the efficiency are
   positive and at most nominal, nominal at the centre, symmetric about it, and do not grow when moving away from it. *)
Theorem C19_response_shape :
  forall P tr inside x y,
  tr || negb (pn_real P) = true -> resp_ok (pn_resp P) -> 0 < span_x P -> 0 < span_y P ->
  1 / 10000000000 <= pn_res P -> 1 / 10000000000 <= pn_eff P ->
  exists rx ry e, get_resolution1 P tr inside (Fin x) (Fin y) = Ok (Fin rx, Fin ry)
    /\ get_efficiency1 P tr inside (Fin x) (Fin y) = Ok (Fin e)
    /\ 0 < rx <= pn_res P /\ 0 < ry <= pn_res P /\ 0 < e <= pn_eff P
    /\ (x = pn_x P -> rx = pn_res P) /\ (y = pn_y P -> ry = pn_res P) /\ (x = pn_x P -> y = pn_y P -> e = pn_eff P)
    /\ forall x' y' rx' ry' e', get_resolution1 P tr inside (Fin x') (Fin y') = Ok (Fin rx', Fin ry') ->
         get_efficiency1 P tr inside (Fin x') (Fin y') = Ok (Fin e') ->
         (Rabs (x - pn_x P) <= Rabs (x' - pn_x P) -> rx' <= rx)
         /\ (Rabs (y - pn_y P) <= Rabs (y' - pn_y P) -> ry' <= ry)
         /\ (Rabs (x - pn_x P) <= Rabs (x' - pn_x P) -> Rabs (y - pn_y P) <= Rabs (y' - pn_y P) -> e' <= e)
         /\ (x' = 2 * pn_x P - x -> rx' = rx) /\ (y' = 2 * pn_y P - y -> ry' = ry)
         /\ ((x' = 2 * pn_x P - x \/ x' = x) -> (y' = 2 * pn_y P - y \/ y' = y) -> e' = e).
Proof. exact response_shape. Qed.
Print Assumptions C19_response_shape.
(* C19. Differentiable mode, a muon infinitely far away along x: the resolution there is the floor of 1e-10, and so is the efficiency of a
   sigmoid panel; that of a Gaussian panel is zero.  A Gaussian panel refuses a muon whose x is not a number. *)
Theorem C19_infinitely_far :
  forall P tr inside x y,
  tr || negb (pn_real P) = true -> resp_ok (pn_resp P) -> 0 < span_x P -> 0 < span_y P ->
  (xisinf x = true ->
     (exists ry, get_resolution1 P tr inside x (Fin y) = Ok (Fin (1 / 10000000000), Fin ry))
     /\ get_efficiency1 P tr inside x (Fin y) = Ok (Fin (match pn_resp P with Gauss => 0 | Sig _ => 1 / 10000000000 end)))
  /\ (pn_resp P = Gauss -> get_resolution1 P tr inside NaN (Fin y) = Err ValueError /\ get_efficiency1 P tr inside NaN (Fin y) = Err ValueError).
Proof. exact far_response. Qed.
Print Assumptions C19_infinitely_far.
Example C19_infinitely_far_case : get_efficiency1 (a_panel 2) true false PInf (Fin 0) = Ok (Fin 0).
Proof. apply (C19_infinitely_far (a_panel 2) true false PInf 0); unfold span_x, span_y, a_panel, resp_ok; cbn; auto; lra. Qed.

Example C19_case :
  (true || negb (pn_real (a_panel 2)) = true) /\ resp_ok (pn_resp (a_panel 2)) /\ resp_ok (Sig (1/10)) /\ 0 < span_x (a_panel 2)
  /\ 0 < span_y (a_panel 2) /\ 1 / 10000000000 <= pn_res (a_panel 2) /\ 1 / 10000000000 <= pn_eff (a_panel 2).
Proof. unfold span_x, span_y, a_panel, resp_ok; cbn. repeat split; lra. Qed.

(* C19. The bound by the nominal value needs the nominal value to be at least 1e-10, since the response is clamped there:
   a panel accepted by the constructor reports a larger resolution than its nominal one. *)
Theorem C19_tiny_nominal_refuted :
  exists P rx ry, new_panel Gauss (1 / 100000000000) 1 0 0 0 1 1 1 None true = Ok P
    /\ get_resolution1 P true true (Fin 0) (Fin 0) = Ok (Fin rx, Fin ry) /\ pn_res P < rx.
Proof.
  do 3 eexists. split; [unfold new_panel; destruct (Rleb_spec (1 / 100000000000) 0); [lra|]; destruct (Rleb_spec 1 0); [lra|]; reflexivity|].
  split.
  - apply (response_eq (Panel Gauss (1 / 100000000000) 1 0 0 0 1 1 1 1 true) true true 0 0); unfold span_x, span_y; cbn; auto; lra.
  - unfold res_at. eapply Rlt_le_trans; [|apply Rmax_r]. cbn. lra.
Qed.
Print Assumptions C19_tiny_nominal_refuted.

(* C19. A position that is not a number is refused by a Gaussian panel in differentiable mode, for resolution and efficiency. *)
Theorem C19_nan_position :
  forall P tr inside x y, tr || negb (pn_real P) = true -> pn_resp P = Gauss -> 0 < span_x P -> 0 < span_y P ->
  x = NaN \/ y = NaN ->
  get_resolution1 P tr inside x y = Err ValueError /\ get_efficiency1 P tr inside x y = Err ValueError.
Proof. exact nan_position. Qed.
Print Assumptions C19_nan_position.

(* C20. Assigning a budget never fails, the costs of all panels add up to the budget, every panel has a positive cost, the
   reported cost is the budget, the share of the i-th weight goes to the i-th panel counted layer by layer and from the
   highest to the lowest, and nothing but the scales of the panels changes: neither positions, nor spans, nor weights. *)
Theorem C20_budget_spent :
  forall argsort V c,
  is_argsort argsort -> v_budget V = Some c -> 0 < c -> v_weights V <> [] ->
  List.length (v_weights V) = List.length (all_panels (v_layers V)) -> Forall affordable (all_panels (v_layers V)) ->
  exists V', assign_budget argsort V = Ok V'
    /\ Rsum (map panel_cost (all_panels (v_layers V'))) = c
    /\ Forall (fun P => 0 < panel_cost P) (all_panels (v_layers V'))
    /\ volume_cost V' = c /\ Rsum (map det_cost (detectors (v_layers V'))) = c
    /\ Forall2 (fun w z => exists P, In P (all_panels (v_layers V')) /\ pn_z P = z
                           /\ panel_cost P = c * (exp w / Rsum (map exp (v_weights V))))
         (v_weights V) (flat_map (fun D => sort_down (map pn_z (dl_panels D))) (detectors (v_layers V)))
    /\ Forall2 same_layer (v_layers V) (v_layers V')
    /\ Forall (fun P => 0 <= pn_scale P) (all_panels (v_layers V'))
    /\ v_budget V' = Some c /\ v_weights V' = v_weights V /\ v_target V' = v_target V.
Proof. exact budget_spent. Qed.
Print Assumptions C20_budget_spent.

(* C20. A new volume with a budget has one weight per panel, all zero. *)
Theorem C20_new_volume :
  forall argsort ls c V, new_volume argsort ls (Some c) = Ok V ->
  v_weights V = repeat 0 (List.length (all_panels ls)) /\ v_budget V = Some c.
Proof. exact new_volume_weights. Qed.
Print Assumptions C20_new_volume.

Example C20_case :
  v_budget small_volume = Some 5 /\ 0 < 5 /\ v_weights small_volume <> []
  /\ List.length (v_weights small_volume) = List.length (all_panels (v_layers small_volume))
  /\ Forall affordable (all_panels (v_layers small_volume))
  /\ exists V, new_volume argsort_ins small_layers (Some 5) = Ok V.
Proof.
  assert (Forall affordable (all_panels small_layers)) as Ha by (repeat constructor; cbn; lra).
  split; [reflexivity|]. split; [lra|]. split; [discriminate|]. split; [reflexivity|]. split; [exact Ha|].
  unfold new_volume. change (get_device small_layers) with (Ok tt). cbn [bind]. replace (check_passives small_layers) with (Ok tt) by reflexivity. cbn [bind].
  destruct (budget_spent argsort_ins (Volume small_layers (Some 5) (repeat 0 3) None) 5 argsort_exists) as (V & E & _); auto; try discriminate; try lra.
  exists V. exact E.
Qed.

(* C21. Whatever the parameters were before (after any optimiser step), conforming a detector layer puts every panel into it:
   each coordinate and span becomes the closest allowed value, everything else stays. *)
Theorem C21_conform :
  forall eps D, 0 <= dl_lx D -> 0 <= dl_ly D -> (forall i, 0 <= eps i /\ 2 * eps i <= dl_size D) ->
  (dl_pos (conform_detector eps D) = dl_pos D /\ dl_lx (conform_detector eps D) = dl_lx D /\ dl_ly (conform_detector eps D) = dl_ly D
   /\ dl_z (conform_detector eps D) = dl_z D /\ dl_size (conform_detector eps D) = dl_size D)
  /\ List.length (dl_panels (conform_detector eps D)) = List.length (dl_panels D)
  /\ forall i P, nth_error (dl_panels D) i = Some P ->
       exists P', nth_error (dl_panels (conform_detector eps D)) i = Some P' /\ conformed D (eps i) P P'.
Proof. exact conform_spec. Qed.
Print Assumptions C21_conform.

(* C21. The closest allowed value to an allowed value is that value: conforming panels are left alone. *)
Theorem C21_already_inside :
  forall lo hi x x', nearest lo hi x x' -> lo <= x <= hi -> x' = x.
Proof. exact nearest_unchanged. Qed.
Print Assumptions C21_already_inside.

Example C21_case :
  let D := Det "above" 1 1 4 1 [Panel Gauss 1000 1 7 (-3) 9 (1/100) 50 1 1 true] in
  let eps := fun _ : nat => 1 / 2000 in
  0 <= dl_lx D /\ 0 <= dl_ly D /\ (forall i, 0 <= eps i /\ 2 * eps i <= dl_size D)
  /\ dl_panels (conform_detector eps D) = [Panel Gauss 1000 1 1 0 (4 - 1 / 2000) (1 / 20) 10 1 1 true].
Proof.
  cbn. split; [lra|]. split; [lra|]. split; [intros; lra|]. unfold with_place. cbn. unfold Rclamp, Rmax, Rmin.
  repeat destruct (Rle_dec _ _); try lra. do 2 f_equal; lra.
Qed.

(* C22. Voxel edges: entry ((i*ny+j)*nz+k) of the list is the lower corner of the voxel in column (i, j) of the k-th layer
   from the bottom, and there is one entry per voxel. *)
Theorem C22_edges :
  forall ls s m nx ny nz, stack ls s m nx ny nz ->
  exists es, build_xyz_edges ls = Ok es /\ List.length es = (nx * ny * nz)%nat
  /\ forall i j k L, (i < nx)%nat -> (j < ny)%nat -> nth_error (rev (passives ls)) k = Some L ->
       nth_error es ((i * ny + j) * nz + k) = Some (INR i * s, INR j * s, pl_z L - pl_size L).
Proof. exact edges_spec. Qed.
Print Assumptions C22_edges.

(* C22. Voxel centres: in the order of the edges, each in the middle of its voxel; looking them up gives back the indices of the voxels. *)
Theorem C22_centres :
  forall ls s m nx ny nz, stack ls s m nx ny nz ->
  exists cs idx pts, xyz_centres ls = Ok cs /\ List.length cs = (nx * ny * nz)%nat /\ lookup_coords ls cs = Ok (idx, pts)
  /\ forall i j k L, (i < nx)%nat -> (j < ny)%nat -> nth_error (rev (passives ls)) k = Some L ->
       nth_error cs ((i * ny + j) * nz + k) = Some ((INR i + 1 / 2) * s, (INR j + 1 / 2) * s, pl_z L - pl_size L / 2)
       /\ nth_error idx ((i * ny + j) * nz + k) = Some (Z.of_nat i, Z.of_nat j, Z.of_nat k).
Proof. exact centres_spec. Qed.
Print Assumptions C22_centres.

(* C22. A volume is refused exactly if it has no layers or if two of its passive layers differ in length, width or size. *)
Theorem C22_same_size :
  forall argsort ls,
  ((exists L L', In L (passives ls) /\ In L' (passives ls) /\ (pl_lx L, pl_ly L, pl_size L) <> (pl_lx L', pl_ly L', pl_size L'))
     -> forall b, new_volume argsort ls b = Err ValueError)
  /\ ((forall L L', In L (passives ls) -> In L' (passives ls) -> (pl_lx L, pl_ly L, pl_size L) = (pl_lx L', pl_ly L', pl_size L'))
     -> ls <> [] -> new_volume argsort ls None = Ok (Volume ls None [] None))
  /\ forall b, new_volume argsort [] b = Err IndexError.
Proof. exact same_size. Qed.
Print Assumptions C22_same_size.

(* C22. Material cube: after loading materials, slice k of the cube is the material of the k-th layer from the bottom. *)
Theorem C22_cube :
  forall ls f t V, v_layers V = ls -> (0 < List.length (passives ls))%nat ->
  (forall L, In L (passives ls) -> shape2 (f (pl_z L) (pl_lx L, pl_ly L) (pl_size L)) =
     match passives ls with L0 :: _ => shape2 (f (pl_z L0) (pl_lx L0, pl_ly L0) (pl_size L0)) | [] => [] end) ->
  exists cube, get_rad_cube (v_layers (volume_load f t V)) = Ok cube /\ List.length cube = List.length (passives ls)
  /\ forall k L, nth_error (rev (passives ls)) k = Some L -> nth_error cube k = Some (f (pl_z L) (pl_lx L, pl_ly L) (pl_size L)).
Proof. exact cube_spec. Qed.
Print Assumptions C22_cube.

(* C22, C23. Voxel lookup: it accepts the points of the closed passive volume and no others, and the indices (i, j, k) it
   returns are those of the voxel column (i, j) in the k-th layer from the bottom that contains the point. *)
Theorem C22_C23_lookup :
  forall ls s m nx ny nz pts, stack ls s m nx ny nz ->
  match lookup_coords ls pts with
  | Ok (idx, _) => Forall (in_box s m nx ny nz) pts /\ Forall2 (in_voxel s m) idx pts
  | Err e => e = ValueError /\ Exists (fun p => ~ in_box s m nx ny nz p) pts
  end.
Proof. exact lookup_spec. Qed.
Print Assumptions C22_C23_lookup.
(* C22, C23. Without passive layers there are no edges, centres, ranges and voxels to look up: IndexError. *)
Theorem C22_C23_no_passives :
  forall ls pts, passives ls = [] ->
  build_xyz_edges ls = Err IndexError /\ xyz_centres ls = Err IndexError /\ passive_z_range ls = Err IndexError /\ lookup_coords ls pts = Err IndexError.
Proof. intros ls pts E. unfold build_xyz_edges, xyz_centres, passive_z_range, lookup_coords, last_passive. rewrite E. repeat split. Qed.
Print Assumptions C22_C23_no_passives.

(* a stack of two layers of 3 by 1 voxels above height 2 *)
Definition two_layers : list layer :=
  [LPass (Passive 3 1 4 1 (1/2) None "pdg"); LPass (Passive 3 1 3 1 (1/2) None "pdg")].
Lemma two_layers_stack : stack two_layers 1 2 3 1 2.
Proof.
  split; [lra|]. split; [reflexivity|]. split; [lia|]. intros k L H.
  destruct k as [|[|k]]; cbn in H; [| |destruct k; discriminate]; injection H as <-; cbn; repeat split; lra.
Qed.
Example C22_case : stack two_layers 1 2 3 1 2 /\ v_layers (Volume two_layers None [] None) = two_layers
  /\ (forall L, In L (passives two_layers) -> shape2 [[pl_z L]; [1]; [2]] = [1; 1; 1]%nat).
Proof. split; [apply two_layers_stack|]. split; [reflexivity|]. reflexivity. Qed.

(* C22. The edges are only right when the bottom of the stack is at a multiple of the voxel size.  One layer of one voxel
   between heights 2.5 and 3.5 gets two voxels, neither of which is at the bottom of the layer. *)
Theorem C22_edges_refuted :
  exists ls es L, check_passives ls = Ok tt /\ passives ls = [L] /\ pl_lx L = pl_size L /\ pl_ly L = pl_size L
    /\ build_xyz_edges ls = Ok es /\ List.length es = 2%nat
    /\ Forall (fun e : R * R * R => snd e <> pl_z L - pl_size L) es.
Proof.
  exists [LPass (Passive 1 1 (7/2) 1 (1/2) (Some [[1]]) "pdg")], [(0, 0, 2); (0, 0, 3)], (Passive 1 1 (7/2) 1 (1/2) (Some [[1]]) "pdg").
  split; [reflexivity|]. split; [reflexivity|]. split; [reflexivity|]. split; [reflexivity|].
  split; [|split; [reflexivity|repeat constructor; cbn; lra]].
  unfold build_xyz_edges. cbn [last_passive passives flat_map app rev bind passive_z_range pl_z pl_size pl_lx pl_ly fst snd].
  assert (round_half_even ((7 / 2 - 1) / 1) = 2%Z) as ->.
  { unfold round_half_even. rewrite (Rfloor_unique ((7 / 2 - 1) / 1) 2) by lra.
    destruct (Rltb_spec ((7 / 2 - 1) / 1 - 2) (1 / 2)); [lra|]. destruct (Rltb_spec (1 / 2) ((7 / 2 - 1) / 1 - 2)); [lra|reflexivity]. }
  assert (round_half_even (7 / 2 / 1) = 4%Z) as ->.
  { unfold round_half_even. rewrite (Rfloor_unique (7 / 2 / 1) 3) by lra.
    destruct (Rltb_spec (7 / 2 / 1 - 3) (1 / 2)); [lra|]. destruct (Rltb_spec (1 / 2) (7 / 2 / 1 - 3)); [lra|reflexivity]. }
  replace (1 / 1) with (IZR 1) by lra. rewrite round_half_even_int. change (zrange 2 4) with [2%Z; 3%Z]. change (zrange 0 1) with [0%Z].
  cbn [flat_map map app]. rewrite !Rmult_1_l. reflexivity.
Qed.
Print Assumptions C22_edges_refuted.

(* C23. Points of the passive volume that are not on its upper faces get indices in range. *)
Theorem C23_in_range :
  forall ls s m nx ny nz pts, stack ls s m nx ny nz ->
  Forall (fun p : R * R * R => let '(x, y, z) := p in 0 <= x < INR nx * s /\ 0 <= y < INR ny * s /\ IZR m * s <= z < IZR (m + Z.of_nat nz) * s) pts ->
  exists idx pts', lookup_coords ls pts = Ok (idx, pts') /\ Forall2 (in_voxel s m) idx pts
  /\ Forall (fun ijk : Z * Z * Z => let '(i, j, k) := ijk in (0 <= i < Z.of_nat nx)%Z /\ (0 <= j < Z.of_nat ny)%Z /\ (0 <= k < Z.of_nat nz)%Z) idx.
Proof. exact lookup_in_range. Qed.
Print Assumptions C23_in_range.

Example C23_case : let '(x, y, z) := (5/2, 1/2, 7/2) in 0 <= x < INR 3 * 1 /\ 0 <= y < INR 1 * 1 /\ IZR 2 * 1 <= z < IZR (2 + Z.of_nat 2) * 1.
Proof. cbn. lra. Qed.

(* C23. A point on an upper face is accepted but gets an index that is out of range. *)
Theorem C23_upper_face_refuted :
  exists ls s m nx ny nz p i j k p', stack ls s m nx ny nz /\ lookup_coords ls [p] = Ok ([(i, j, k)], [p']) /\ i = Z.of_nat nx.
Proof.
  exists two_layers, 1, 2%Z, 3%nat, 1%nat, 2%nat, (3, 0, 2), 3%Z, 0%Z, 0%Z, (3, 0, 0). split; [apply two_layers_stack|].
  split; [|reflexivity]. unfold lookup_coords, two_layers. cbn [last_passive passives flat_map app rev bind passive_z_range pl_z pl_size pl_lx pl_ly fst snd existsb map].
  unfold Rltb. repeat (destruct (Rlt_dec _ _); [lra|]). cbn [orb].
  replace (2 - (3 - 1)) with 0 by lra.
  rewrite (Rfloor_unique (3 / 1) 3) by lra. rewrite (Rfloor_unique (0 / 1) 0) by lra. reflexivity.
Qed.
Print Assumptions C23_upper_face_refuted.

(* C23. The lookup changes its argument: heights become relative to the bottom of the passive volume. *)
Theorem C23_argument_refuted :
  exists ls s m nx ny nz p idx p', stack ls s m nx ny nz /\ lookup_coords ls [p] = Ok (idx, [p']) /\ p' <> p.
Proof.
  exists two_layers, 1, 2%Z, 3%nat, 1%nat, 2%nat, (5/2, 1/2, 7/2), [(2%Z, 0%Z, 1%Z)], (5/2, 1/2, 3/2). split; [apply two_layers_stack|].
  split; [|intro H; injection H; lra]. unfold lookup_coords, two_layers. cbn [last_passive passives flat_map app rev bind passive_z_range pl_z pl_size pl_lx pl_ly fst snd existsb map].
  unfold Rltb. repeat (destruct (Rlt_dec _ _); [lra|]). cbn [orb].
  replace (7 / 2 - (3 - 1)) with (3 / 2) by lra.
  rewrite (Rfloor_unique (5 / 2 / 1) 2) by lra. rewrite (Rfloor_unique (1 / 2 / 1) 0) by lra. rewrite (Rfloor_unique (3 / 2 / 1) 1) by lra. reflexivity.
Qed.
Print Assumptions C23_argument_refuted.
