(* Properties C10-C16 and C66-C68: passive layers. *)
From Coq Require Import ZArith Psatz.
From Verif Require Import Base.Trig Model.Layer Spec.ListSpec Spec.MuonSpec Spec.AngleSpec Spec.LayerSpec.
From Verif Require Import Proofs.LayerP Proofs.PdgP Proofs.LayerCross.
Open Scope R_scope.
Open Scope string_scope.
Open Scope list_scope.

(* a layer of one voxel of lead-like material, two steps thick, and the same layer without material *)
Definition one_voxel : passive := Passive 1 1 3 1 (1 / 2) (Some [[1]]) "pdg".
Definition no_voxel : passive := Passive 1 1 3 1 (1 / 2) None "pdg".

(* C10. Whatever the random numbers, when a crossing ends, every muon still in the batch is exactly at the bottom
   of the layer and flies downwards; the batch holds some of the incoming muons, in order, each with its own momentum
   and hits; the others are in the record of removed muons. *)
Theorem C10_layer_exit :
  forall (H : Type) (L : passive) (rng : nat -> nat -> draw) (fuel : nat) (b b' : batch H),
  0 < pl_size L -> 0 < pl_step L -> positive_map L ->
  Forall sound (b_muons b) -> aligned (List.length (b_muons b)) (b_hits b) ->
  layer_forward L rng fuel b = Some (Ok b') ->
  Forall (fun u => sound u /\ mz u = Fin (pl_bot L)) (b_muons b') /\ survivors b b' /\ conserved b b'.
Proof.
  exact (fun H L rng fuel b b' h1 h2 h3 h4 h5 E =>
    let Q := layer_exit L rng fuel b b' h1 h2 h3 h4 h5 E in
    conj (proj1 Q) (conj (proj2 Q) (layer_conserved L rng fuel b b' E))).
Qed.
Print Assumptions C10_layer_exit.

(* C10. When the material map has one positive radiation length per voxel, crossing a layer raises no exception. *)
Theorem C10_layer_no_exception :
  forall (H : Type) (L : passive) (rng : nat -> nat -> draw) (fuel : nat) (b : batch H) (e : exn),
  0 < pl_size L -> 0 < pl_step L -> material_ok L ->
  Forall sound (b_muons b) -> aligned (List.length (b_muons b)) (b_hits b) ->
  layer_forward L rng fuel b <> Some (Err e).
Proof. exact @layer_no_error. Qed.
Print Assumptions C10_layer_no_exception.

Lemma one_voxel_ok : material_ok one_voxel.
Proof.
  split; [reflexivity|]. exists 1%nat, 1%nat. cbn. split; [lra|]. split; [lra|]. split; [lra|]. split; [reflexivity|].
  split; [intros row [<-|[]]; reflexivity|]. intros row x [<-|[]] [<-|[]]. lra.
Qed.
(* a muon above the voxel: neither theorem is vacuous *)
Example C10_case :
  let b : batch nat := Batch [Mu (Fin (1/2)) (Fin (1/2)) (Fin 4) (Fin 5) (Fin (1/10)) (Fin 0)] None [] [] in
  material_ok one_voxel /\ positive_map one_voxel /\ Forall sound (b_muons b) /\ aligned (List.length (b_muons b)) (b_hits b).
Proof.
  cbv zeta. pose proof PI2_3_2. split; [apply one_voxel_ok|]. split; [apply material_positive, one_voxel_ok|]. split.
  - repeat constructor. do 6 eexists. split; [reflexivity|]. unfold PI2 in *; lra.
  - intros p vs v ts t [].
Qed.

(* C11. A layer without material: every muon crosses it along a straight line, ends at the bottom, keeps its momentum and
   direction; nothing else of the batch changes; and the loop ends (any number of iterations above some bound gives this). *)
Theorem C11_empty_layer_straight :
  forall (H : Type) (L : passive) (cs : list go_case) r h hi,
  pl_rad L = None -> 0 < pl_size L -> 0 < pl_step L -> (forall c, In c cs -> downwards c) ->
  exists fuel0, forall fuel rng, (fuel0 <= fuel)%nat ->
    layer_forward (H := H) L rng fuel (Batch (map g_mu cs) r h hi)
    = Some (Ok (Batch (map (fun c => along c ((g_z c - pl_bot L) / cos (g_th c))) cs) r h hi)).
Proof. exact @empty_layer. Qed.
Print Assumptions C11_empty_layer_straight.

Example C11_case :
  pl_rad no_voxel = None /\ 0 < pl_size no_voxel /\ 0 < pl_step no_voxel
  /\ downwards (GC true (1/2) (1/2) 4 (Fin 5) 1 2 0)
  /\ g_z (GC true (1/2) (1/2) 4 (Fin 5) 1 2 0) - pl_bot no_voxel = 2.
Proof. unfold downwards, pl_bot; cbn. pose proof PI2_3_2. unfold PI2 in *. repeat split; try lra. Qed.

(* C12. One step: a muon that is not over the material, or not selected, is not scattered: it flies straight (a selected
   muon by the step length or to the bottom of the layer, whichever is nearer) and is never removed. *)
Theorem C12_outside_not_scattered :
  forall (H : Type) (L : passive) (rng : nat -> draw) (cs : list go_case) r h hi (b' : batch H),
  (forall c, In c cs -> downwards c) -> aligned (List.length cs) h ->
  scatter_and_propagate L rng (map g_sel cs) (Batch (map g_mu cs) r h hi) = Ok b' ->
  exists out : list (option muon), List.length out = List.length cs
    /\ b_muons b' = somes out /\ b_hits b' = keep_hits (map is_some out) h
    /\ (pl_rad L = None -> Forall (fun o => is_some o = true) out)
    /\ forall i c, nth_error cs i = Some c -> ~ (g_sel c = true /\ over_material L c /\ pl_rad L <> None) ->
         nth_error out i = Some (Some (free_flight L c)).
Proof. exact @outside_flies_free. Qed.
Print Assumptions C12_outside_not_scattered.

(* two muons beside the voxel of material; the first is selected *)
Example C12_case :
  let c1 := GC true 2 (1/2) 3 (Fin 5) 1 2 0 in
  let c2 := GC false (1/2) (-1) 3 (Fin 5) 1 2 0 in
  downwards c1 /\ downwards c2
  /\ ~ (g_sel c1 = true /\ over_material one_voxel c1 /\ pl_rad one_voxel <> None)
  /\ exists b' : batch nat,
       scatter_and_propagate one_voxel (fun _ => Draw 1 2 3 4) (map g_sel [c1; c2]) (Batch (map g_mu [c1; c2]) None [] []) = Ok b'.
Proof.
  cbv zeta. unfold downwards, over_material; cbn [g_th g_x g_y g_sel pl_lx one_voxel]. pose proof PI2_3_2. unfold PI2 in *.
  split; [lra|]. split; [lra|]. split; [lra|].
  apply step_no_error; auto using one_voxel_ok.
  - cbn [map b_muons]. apply Forall_cons; [|apply Forall_cons; [|apply Forall_nil]]; do 6 eexists; (split; [reflexivity|cbn; lra]).
  - intros p vs v ts t [].
Qed.

(* C13. A muon over the layer reads the radiation length of the voxel it is in: indices in range, no wrap-around. *)
Theorem C13_voxel_of_muon :
  forall (L : passive) (rad : list (list R)) (nx ny : nat) x y z p th ph,
  0 < pl_size L -> pl_lx L = INR nx * pl_size L -> pl_ly L = INR ny * pl_size L ->
  List.length rad = nx -> (forall row, In row rad -> List.length row = ny) ->
  0 <= x < pl_lx L -> 0 <= y < pl_ly L ->
  exists i j row x0,
    (i < nx)%nat /\ (j < ny)%nat
    /\ INR i * pl_size L <= x < (INR i + 1) * pl_size L
    /\ INR j * pl_size L <= y < (INR j + 1) * pl_size L
    /\ abs2idx1 (pl_size L) (Fin x) = Some (Z.of_nat i) /\ abs2idx1 (pl_size L) (Fin y) = Some (Z.of_nat j)
    /\ nth_error rad i = Some row /\ nth_error row j = Some x0
    /\ lookup_x0 L rad (Mu (Fin x) (Fin y) z p th ph) = Ok x0.
Proof. exact voxel_lookup. Qed.
Print Assumptions C13_voxel_of_muon.

Example C13_case :
  let L := Passive 2 1 3 1 (1/2) (Some [[5]; [7]]) "pdg" in
  pl_lx L = INR 2 * pl_size L /\ pl_ly L = INR 1 * pl_size L /\ 0 <= 3/2 < pl_lx L /\ 0 <= 1/2 < pl_ly L.
Proof. cbn. repeat split; lra. Qed.

(* C14. The displacement of a scattering is transverse to the flight, and as long as the drawn displacement. *)
Theorem C14_displacement_transverse :
  forall x0 th ph p st d tx ty,
  0 < x0 -> 0 < p -> 0 < st ->
  let s := pdg_scatter1 (Fin x0) (Fin th) (Fin ph) tx ty (Fin p) (Fin st) d in
  let dx := st * pdg_width (st / x0) p * (z1x d / sqrt 12 + z2x d / 2) in
  let dy := st * pdg_width (st / x0) p * (z1y d / sqrt 12 + z2y d / 2) in
  exists vx vy vz, s_dx_vol s = Fin vx /\ s_dy_vol s = Fin vy /\ s_dz_vol s = Fin vz
    /\ dot3 (vx, vy, vz) (dir th ph) = 0
    /\ sqrt (dot3 (vx, vy, vz) (vx, vy, vz)) = sqrt (dx * dx + dy * dy).
Proof. exact displacement_transverse. Qed.
Print Assumptions C14_displacement_transverse.

(* C15. The flight is turned by exactly the drawn pair of projected angles a, b: the angle between the old and the new
   direction has tangent sqrt(tan^2 a + tan^2 b).  For deflections that keep the muon flying downwards. *)
Theorem C15_deflection_angle :
  forall x0 th ph p st d,
  0 < x0 -> 0 < p -> 0 < st -> 0 <= th < PI / 2 ->
  let s := pdg_scatter1 (Fin x0) (Fin th) (Fin ph) (Fin (proj_x th ph)) (Fin (proj_y th ph)) (Fin p) (Fin st) d in
  forall a b, s_dtheta_x_m s = Fin a -> s_dtheta_y_m s = Fin b -> open_half a -> open_half b ->
  0 < cos th - tan b * sin th ->
  exists dtx dty, s_dtheta_x_vol s = Fin dtx /\ s_dtheta_y_vol s = Fin dty
    /\ open_half (proj_x th ph + dtx) /\ open_half (proj_y th ph + dty)
    /\ forall t f, 0 <= t < PI / 2 -> proj_x t f = proj_x th ph + dtx -> proj_y t f = proj_y th ph + dty ->
       dot3 (dir th ph) (dir t f) = / sqrt (1 + tan a * tan a + tan b * tan b).
Proof. exact deflection_by_drawn_angle. Qed.
Print Assumptions C15_deflection_angle.

(* C14, C15: a vertical muon of 13.6 MeV through one radiation length, width 1, draw (0, 0, 1, 0): moved by half a step,
   turned by 1 radian in x *)
Example C14_C15_case :
  let s := pdg_scatter1 (Fin 1) (Fin 0) (Fin 0) (Fin (proj_x 0 0)) (Fin (proj_y 0 0)) (Fin (136/10000)) (Fin 1) (Draw 0 0 1 0) in
  s_dx_vol s = Fin (1 / 2) /\ s_dtheta_x_m s = Fin 1 /\ s_dtheta_y_m s = Fin 0
  /\ open_half 1 /\ open_half 0 /\ 0 < cos 0 - tan 0 * sin 0.
Proof.
  cbv zeta. pose proof PI2_3_2. unfold PI2 in *.
  destruct (pdg_displacement 1 0 0 (136 / 10000) 1 (Draw 0 0 1 0) ltac:(lra) ltac:(lra) ltac:(lra) (Fin (proj_x 0 0)) (Fin (proj_y 0 0)))
    as (E1 & _ & _ & E4 & E5).
  rewrite E1, E4, E5, width_one by lra. unfold rot_x, off_x. rewrite width_one by lra. cbn [z1x z2x z2y].
  destruct (Reqb_spec 0 0) as [_|N]; [|lra]. rewrite tan_0, cos_0. unfold open_half.
  assert (0 < sqrt 12) by (apply sqrt_lt_R0; lra).
  split; [f_equal; field; lra|]. split; [f_equal; rewrite Rmin_left; lra|]. split; [f_equal; rewrite Rmin_left; lra|]. lra.
Qed.

(* C16. The drawn angle is limited from above below a right angle ... *)
Theorem C16_angle_limited_above :
  forall x0 th ph p st d tx ty,
  0 < x0 -> 0 < p -> 0 < st ->
  let s := pdg_scatter1 (Fin x0) (Fin th) (Fin ph) tx ty (Fin p) (Fin st) d in
  exists a b, s_dtheta_x_m s = Fin a /\ s_dtheta_y_m s = Fin b /\ a < PI / 2 /\ b < PI / 2.
Proof. exact angle_limited_above. Qed.
Print Assumptions C16_angle_limited_above.

(* ... but not from below: the clamp has no minimum. *)
Theorem C16_angle_limited_refuted :
  exists x0 th ph p st d a,
    0 < x0 /\ 0 < p /\ 0 < st /\ 0 <= th < PI / 2 /\
    s_dtheta_x_m (pdg_scatter1 (Fin x0) (Fin th) (Fin ph) (Fin (proj_x th ph)) (Fin (proj_y th ph)) (Fin p) (Fin st) d) = Fin a
    /\ a < - PI.
Proof. exact angle_not_limited. Qed.
Print Assumptions C16_angle_limited_refuted.

(* C66. In multiple scattering the displacement goes to the side of the deflection.  Here it goes to the opposite side,
   whenever z1 = 0: the new direction has a negative component along the displacement. *)
Theorem C66_displacement_opposite :
  forall x0 th ph p st d,
  0 < x0 -> 0 < p -> 0 < st -> 0 <= th < PI / 2 -> 0 < pdg_width (st / x0) p ->
  z1x d = 0 -> z1y d = 0 -> ~ (z2x d = 0 /\ z2y d = 0) ->
  let s := pdg_scatter1 (Fin x0) (Fin th) (Fin ph) (Fin (proj_x th ph)) (Fin (proj_y th ph)) (Fin p) (Fin st) d in
  forall a b, s_dtheta_x_m s = Fin a -> s_dtheta_y_m s = Fin b -> open_half a -> open_half b ->
  0 < cos th - tan b * sin th ->
  exists vx vy vz dtx dty, s_dx_vol s = Fin vx /\ s_dy_vol s = Fin vy /\ s_dz_vol s = Fin vz
    /\ s_dtheta_x_vol s = Fin dtx /\ s_dtheta_y_vol s = Fin dty
    /\ dot3 (vx, vy, vz) (dir th ph) = 0
    /\ forall t f, 0 <= t < PI / 2 -> proj_x t f = proj_x th ph + dtx -> proj_y t f = proj_y th ph + dty ->
       dot3 (vx, vy, vz) (dir t f) < 0.
Proof. exact opposite_side. Qed.
Print Assumptions C66_displacement_opposite.

Example C66_case : 0 < pdg_width (1 / 1) (136 / 10000) /\ ~ (z2x (Draw 0 0 1 0) = 0 /\ z2y (Draw 0 0 1 0) = 0).
Proof. rewrite width_one by lra. cbn. split; lra. Qed.

Theorem C66_displacement_side_refuted :
  exists x0 th ph p st d vx vy vz dtx dty t f, 0 < x0 /\ 0 < p /\ 0 < st /\ 0 <= th < PI / 2 /\ 0 <= t < PI / 2 /\
  let s := pdg_scatter1 (Fin x0) (Fin th) (Fin ph) (Fin (proj_x th ph)) (Fin (proj_y th ph)) (Fin p) (Fin st) d in
  s_dx_vol s = Fin vx /\ s_dy_vol s = Fin vy /\ s_dz_vol s = Fin vz /\ s_dtheta_x_vol s = Fin dtx /\ s_dtheta_y_vol s = Fin dty /\
  z1x d = 0 /\ z1y d = 0 /\ proj_x t f = proj_x th ph + dtx /\ proj_y t f = proj_y th ph + dty /\
  dot3 (vx, vy, vz) (dir th ph) = 0 /\ dot3 (vx, vy, vz) (dir t f) < 0.
Proof.
  pose proof PI2_3_2 as HP. unfold PI2 in HP.
  destruct (pdg_displacement 1 0 0 (136 / 10000) 1 (Draw 0 0 1 0) ltac:(lra) ltac:(lra) ltac:(lra) (Fin (proj_x 0 0)) (Fin (proj_y 0 0))) as (_ & _ & _ & E4 & E5).
  rewrite width_one in E4, E5 by lra. cbn [z2x z2y] in E4, E5. rewrite Rmin_left in E4, E5 by lra. rewrite Rmult_1_l in E4. rewrite Rmult_0_l in E5.
  assert (H1 : open_half 1) by (unfold open_half; lra). assert (H0 : open_half 0) by (unfold open_half; lra).
  assert (HD : 0 < cos 0 - tan 0 * sin 0) by (rewrite cos_0, sin_0; lra). assert (HW : 0 < pdg_width (1 / 1) (136 / 10000)) by (rewrite width_one; lra).
  destruct (C66_displacement_opposite 1 0 0 (136 / 10000) 1 (Draw 0 0 1 0) ltac:(lra) ltac:(lra) ltac:(lra) ltac:(lra) HW eq_refl eq_refl ltac:(cbn; lra) 1 0 E4 E5 H1 H0 HD)
    as (vx & vy & vz & dtx & dty & A1 & A2 & A3 & A4 & A5 & A6 & A7).
  destruct (pdg_deflection 1 0 0 (136 / 10000) 1 (Draw 0 0 1 0) 1 0 ltac:(lra) ltac:(lra) ltac:(lra) ltac:(lra)) as [B1 B2]; auto.
  { rewrite width_one by lra. cbn [z2x]. rewrite Rmin_left; lra. } { rewrite width_one by lra. cbn [z2y]. rewrite Rmin_left; lra. } { unfold out2, rot_z. rewrite cos_0, sin_0. destruct (Reqb_spec 0 0); lra. }
  assert (T : forall q, open_half (proj_x 0 0 + (atan q - proj_x 0 0))) by (intros q; replace (proj_x 0 0 + (atan q - proj_x 0 0)) with (atan q) by ring; pose proof (atan_bound q); unfold open_half; lra).
  assert (T' : forall q, open_half (proj_y 0 0 + (atan q - proj_y 0 0))) by (intros q; replace (proj_y 0 0 + (atan q - proj_y 0 0)) with (atan q) by ring; pose proof (atan_bound q); unfold open_half; lra).
  assert (O : open_half (proj_x 0 0 + dtx) /\ open_half (proj_y 0 0 + dty)). { rewrite A4 in B1. rewrite A5 in B2. injection B1 as ->. injection B2 as ->. auto. }
  destruct (some_direction _ _ (proj1 O) (proj2 O)) as (t & f & Ht & Ex & Ey).
  exists 1, 0, 0, (136 / 10000), 1, (Draw 0 0 1 0), vx, vy, vz, dtx, dty, t, f. repeat (split; [first [assumption|reflexivity|lra]|]). cbv zeta.
  repeat (split; [first [assumption|reflexivity]|]). now apply A7.
Qed.
Print Assumptions C66_displacement_side_refuted.

(* C67. A deflection that turns the flight upwards does not give an upward muon (which would be removed): the muon is kept
   and flies downwards, exactly opposite to the direction it was scattered into. *)
Theorem C67_upward_scatter_reversed :
  forall x0 th ph p st d,
  0 < x0 -> 0 < p -> 0 < st -> 0 <= th < PI / 2 ->
  let s := pdg_scatter1 (Fin x0) (Fin th) (Fin ph) (Fin (proj_x th ph)) (Fin (proj_y th ph)) (Fin p) (Fin st) d in
  forall a b, s_dtheta_x_m s = Fin a -> s_dtheta_y_m s = Fin b -> open_half a -> open_half b ->
  cos th - tan b * sin th < 0 ->
  exists dtx dty, s_dtheta_x_vol s = Fin dtx /\ s_dtheta_y_vol s = Fin dty
    /\ open_half (proj_x th ph + dtx) /\ open_half (proj_y th ph + dty)
    /\ forall t f, 0 <= t < PI / 2 -> proj_x t f = proj_x th ph + dtx -> proj_y t f = proj_y th ph + dty ->
       dot3 (dir th ph) (dir t f) = - / sqrt (1 + tan a * tan a + tan b * tan b).
Proof. exact upward_folded. Qed.
Print Assumptions C67_upward_scatter_reversed.

Example C67_case :
  let s := pdg_scatter1 (Fin 1) (Fin (PI / 4)) (Fin 0) (Fin (proj_x (PI / 4) 0)) (Fin (proj_y (PI / 4) 0)) (Fin (136/10000)) (Fin 1) (Draw 0 0 0 1) in
  s_dtheta_x_m s = Fin 0 /\ s_dtheta_y_m s = Fin 1 /\ open_half 1 /\ open_half 0
  /\ cos (PI / 4) - tan 1 * sin (PI / 4) < 0.
Proof.
  cbv zeta. pose proof PI2_3_2. unfold PI2 in *.
  destruct (pdg_displacement 1 (PI/4) 0 (136 / 10000) 1 (Draw 0 0 0 1) ltac:(lra) ltac:(lra) ltac:(lra) (Fin (proj_x (PI/4) 0)) (Fin (proj_y (PI/4) 0)))
    as (_ & _ & _ & E4 & E5).
  rewrite E4, E5, width_one by lra. cbn [z2x z2y]. unfold open_half.
  split; [f_equal; rewrite Rmin_left; lra|]. split; [f_equal; rewrite Rmin_left; lra|]. split; [lra|]. split; [lra|].
  assert (PI / 4 < 1) as H4 by (pose proof PI_4; pose proof PI_ineq 2; unfold tg_alt, PI_tg in *; cbn in *; lra).
  assert (tan (PI / 4) < tan 1) as Ht by (apply tan_increasing; lra).
  rewrite tan_PI4 in Ht. assert (sin (PI / 4) = cos (PI / 4)) as -> by (rewrite sin_PI4, cos_PI4; auto).
  assert (0 < cos (PI / 4)) by (apply cos_gt_0; lra). nra.
Qed.

(* a muon whose scattered direction points up stays, flying down *)
Theorem C67_upward_scatter_removed_refuted :
  exists x0 th ph p st d dtx dty t f, 0 < x0 /\ 0 < p /\ 0 < st /\ 0 <= th < PI / 2 /\ 0 <= t < PI / 2 /\
  let s := pdg_scatter1 (Fin x0) (Fin th) (Fin ph) (Fin (proj_x th ph)) (Fin (proj_y th ph)) (Fin p) (Fin st) d in
  s_dtheta_x_m s = Fin 0 /\ s_dtheta_y_m s = Fin 1 /\ s_dtheta_x_vol s = Fin dtx /\ s_dtheta_y_vol s = Fin dty /\
  open_half (proj_x th ph + dtx) /\ open_half (proj_y th ph + dty) /\ proj_x t f = proj_x th ph + dtx /\ proj_y t f = proj_y th ph + dty /\
  dot3 (dir th ph) (dir t f) < 0.
Proof.
  destruct C67_case as (E1 & E2 & H1 & H0 & HD). pose proof PI_pos as HP.
  destruct (C67_upward_scatter_reversed 1 (PI / 4) 0 (136/10000) 1 (Draw 0 0 0 1) ltac:(lra) ltac:(lra) ltac:(lra) ltac:(lra) 0 1 E1 E2 H0 H1 HD) as (dtx & dty & A1 & A2 & A3 & A4 & A5).
  destruct (some_direction _ _ A3 A4) as (t & f & Ht & Ex & Ey).
  exists 1, (PI / 4), 0, (136 / 10000), 1, (Draw 0 0 0 1), dtx, dty, t, f. repeat (split; [first [assumption|lra]|]). cbv zeta. repeat (split; [assumption|]).
  rewrite (A5 t f Ht Ex Ey). rewrite tan_0, Rmult_0_l, Rplus_0_r. apply Ropp_lt_gt_0_contravar, Rinv_0_lt_compat, sqrt_lt_R0. nra.
Qed.
Print Assumptions C67_upward_scatter_removed_refuted.

(* C68. A muon is not scattered all along its way through the material: however thick the layer, there are draws for which
   a muon entering it over material is scattered once, displaced above the top, and put at the bottom in the same pass. *)
Theorem C68_skips_layer :
  forall (H : Type) (L : passive) rad (c : go_case) p x0 (h : hits_dict H) hi,
  pl_rad L = Some rad -> pl_model L = "pdg" -> map_fits L rad ->
  0 < pl_step L <= pl_size L -> 0 < g_th c < PI / 2 -> g_p c = Fin p -> 0 < p -> g_z c = pl_z L -> over_material L c ->
  lookup_x0 L rad (g_mu c) = Ok x0 -> pdg_width (pl_step L / x0) p <> 0 ->
  aligned 1 h ->
  exists d, forall rng : nat -> nat -> draw, rng 0%nat 0%nat = d ->
  exists b', layer_forward (H := H) L rng 1 (Batch [g_mu c] None h hi) = Some (Ok b').
Proof.
  exact (fun H L rad c p x0 h hi h1 h2 h3 h4 h5 h6 h7 h8 h9 h10 h11 h12 =>
    ex_intro _ _ (skips_layer L rad c p x0 h hi h1 h2 h3 h4 h5 h6 h7 h8 h9 h10 h11 h12)).
Qed.
Print Assumptions C68_skips_layer.

Example C68_case :
  let c := GC true (1/2) (1/2) 3 (Fin (136/10000)) 1 0 0 in
  let L := Passive 1 1 3 1 (1 / 100) (Some [[1 / 100]]) "pdg" in
  over_material L c /\ 0 < g_th c < PI / 2 /\ 0 < pl_step L <= pl_size L /\ pdg_width (pl_step L / (1 / 100)) (136 / 10000) <> 0
  /\ map_fits L [[1 / 100]].
Proof.
  cbv zeta. unfold over_material; cbn [g_x g_y g_th pl_lx pl_ly pl_step pl_size]. pose proof PI2_3_2. unfold PI2 in *.
  split; [lra|]. split; [lra|]. split; [lra|]. split; [rewrite width_one; lra|].
  exists 1%nat, 1%nat. cbn. split; [lra|]. split; [lra|]. split; [lra|]. split; [reflexivity|].
  split; [intros row [<-|[]]; reflexivity|]. intros row x [<-|[]] [<-|[]]. lra.
Qed.

Theorem C68_scattered_all_the_way_refuted :
  exists (L : passive) rad m d, pl_rad L = Some rad /\ pl_model L = "pdg" /\ map_fits L rad /\ mz m = Fin 3 /\ pl_z L = 3 /\ pl_step L = 1 / 100 /\ pl_size L = 1 /\
  forall rng : nat -> nat -> draw, rng 0%nat 0%nat = d -> exists b', layer_forward (H := unit) L rng 1 (Batch [m] None [] []) = Some (Ok b').
Proof.
  set (c := GC true (1/2) (1/2) 3 (Fin (136/10000)) 1 0 0). set (L := Passive 1 1 3 1 (1 / 100) (Some [[1 / 100]]) "pdg").
  destruct C68_case as (M & T & S & W & F). fold c L in M, T, S, W, F.
  destruct (C68_skips_layer unit L [[1 / 100]] c (136 / 10000) (1 / 100) [] []) as [d Hd]; auto; try reflexivity; try lra.
  - unfold lookup_x0. cbn [g_mu c L mx my pl_size g_x g_y]. unfold abs2idx1. rewrite (Rfloor_unique (1 / 2 / 1) 0) by lra. reflexivity.
  - intros ? ? ? ? ? [].
  - exists L, [[1 / 100]], (g_mu c), d. repeat (split; [first [assumption|reflexivity]|]). exact Hd.
Qed.
Print Assumptions C68_scattered_all_the_way_refuted.
