(* C14-C16: the scattering formulas of one muon, evaluated on finite arguments. *)
From Coq Require Import Psatz.
From Verif Require Import Base.Trig Model.Layer Spec.AngleSpec Spec.LayerSpec Proofs.MuonAngles.
Open Scope R_scope.

(* drawn offsets and angles in the frame of the muon *)
Definition off_x (st n p : R) (d : draw) : R := st * pdg_width n p * (z1x d / sqrt 12 + z2x d / 2).
Definition off_y (st n p : R) (d : draw) : R := st * pdg_width n p * (z1y d / sqrt 12 + z2y d / 2).

Lemma xwhere_true a b : xwhere true a b = a. Proof. reflexivity. Qed.
Lemma xwhere_false a b : xwhere false a b = b. Proof. reflexivity. Qed.

Section Pdg.
Variables x0 th ph p st : R.
Variable d : draw.
Hypothesis Hx0 : 0 < x0.
Hypothesis Hp : 0 < p.
Hypothesis Hst : 0 < st.
Let n := st / x0.

Lemma n_pos : 0 < n.
Proof. apply Rdiv_lt_0_compat; auto. Qed.

Lemma theta0_fin :
  xmul (xmul (xdiv (Fin SCATTER_COEF_A) (Fin p)) (xsqrt (xdiv (Fin st) (Fin x0))))
       (xadd (Fin 1) (xmul (Fin SCATTER_COEF_B) (xlog (xdiv (Fin st) (Fin x0))))) = Fin (pdg_width n p).
Proof.
  rewrite !xdiv_fin by lra. fold n. rewrite xsqrt_fin by (pose proof n_pos; lra).
  rewrite xlog_fin by apply n_pos. reflexivity.
Qed.

Definition rot_x (a b : R) : R := if Reqb th 0 then a else - a * sin ph - b * cos th * cos ph.
Definition rot_y (a b : R) : R := if Reqb th 0 then b else a * cos ph - b * cos th * sin ph.
Definition rot_z (b : R) : R := if Reqb th 0 then 0 else b * sin th.

Lemma pdg_displacement tx ty :
  let s := pdg_scatter1 (Fin x0) (Fin th) (Fin ph) tx ty (Fin p) (Fin st) d in
  s_dx_vol s = Fin (rot_x (off_x st n p d) (off_y st n p d))
  /\ s_dy_vol s = Fin (rot_y (off_x st n p d) (off_y st n p d))
  /\ s_dz_vol s = Fin (- rot_z (off_y st n p d))
  /\ s_dtheta_x_m s = Fin (Rmin (z2x d * pdg_width n p) (PI / (22 / 10)))
  /\ s_dtheta_y_m s = Fin (Rmin (z2y d * pdg_width n p) (PI / (22 / 10))).
Proof.
  cbv zeta. unfold pdg_scatter1. cbv zeta. rewrite theta0_fin.
  cbn [s_dx_vol s_dy_vol s_dz_vol s_dtheta_x_m s_dtheta_y_m].
  unfold xsub, xsin, xcos. cbn [xmul xadd xopp xfun xclamp_max xeq].
  unfold rot_x, rot_y, rot_z, off_x, off_y, xwhere. destruct (Reqb th 0); cbn [negb].
  - repeat split; f_equal; ring.
  - rewrite !cos_neg, !sin_neg. repeat split; f_equal; ring.
Qed.
End Pdg.

(* the displacement is transverse, with the drawn length *)
Lemma rot_ortho th ph a b :
  dot3 (rot_x th ph a b, rot_y th ph a b, - rot_z th b) (dir th ph) = 0
  /\ dot3 (rot_x th ph a b, rot_y th ph a b, - rot_z th b) (rot_x th ph a b, rot_y th ph a b, - rot_z th b) = a * a + b * b.
Proof.
  unfold dot3, dir, rot_x, rot_y, rot_z. destruct (Reqb_spec th 0) as [->|Hn].
  - rewrite sin_0, cos_0. split; ring.
  - pose proof (sin2_cos2' ph) as E1. pose proof (sin2_cos2' th) as E2.
    assert (sin ph * sin ph = 1 - cos ph * cos ph) as Es by lra.
    assert (sin th * sin th = 1 - cos th * cos th) as Et by lra.
    split.
    + transitivity (- b * cos th * sin th * (sin ph * sin ph + cos ph * cos ph) + b * sin th * cos th); [ring|]. rewrite E1. ring.
    + transitivity ((a * a + b * b * (cos th * cos th)) * (sin ph * sin ph + cos ph * cos ph) + b * b * (sin th * sin th)); [ring|].
      rewrite E1, Et. ring.
Qed.

(* ---------- deflection ---------- *)
Section Deflect.
Variables th ph : R.
Hypothesis Hth : 0 <= th < PI / 2.
Variables a b : R.
Hypothesis Ha : open_half a.
Hypothesis Hb : open_half b.

Let ta := tan a.
Let tb := tan b.
(* the deflected direction, in the frame where x and y are mirrored, times cos th *)
Definition out0 : R := - (sin th * cos ph) + rot_x th ph ta tb.
Definition out1 : R := - (sin th * sin ph) + rot_y th ph ta tb.
Definition out2 : R := - cos th + rot_z th tb.

Lemma costh_pos : 0 < cos th.
Proof. apply cos_open. pose proof PI_pos; lra. Qed.

Lemma out_norm : out0 * out0 + out1 * out1 + out2 * out2 = 1 + ta * ta + tb * tb.
Proof.
  unfold out0, out1, out2, rot_x, rot_y, rot_z. destruct (Reqb_spec th 0) as [->|Hn].
  - rewrite sin_0, cos_0. ring.
  - pose proof (sin2_cos2' ph) as E1. pose proof (sin2_cos2' th) as E2.
    assert (sin ph * sin ph = 1 - cos ph * cos ph) as Es by lra.
    assert (sin th * sin th = 1 - cos th * cos th) as Et by lra.
    transitivity ((sin th * sin th + ta * ta + tb * tb * (cos th * cos th) + 2 * tb * sin th * cos th) * (sin ph * sin ph + cos ph * cos ph)
      + cos th * cos th - 2 * tb * sin th * cos th + tb * tb * (sin th * sin th)); [ring|].
    rewrite E1, Et. ring.
Qed.
Lemma out_dot : out0 * - (sin th * cos ph) + out1 * - (sin th * sin ph) + out2 * - cos th = 1.
Proof.
  unfold out0, out1, out2, rot_x, rot_y, rot_z. destruct (Reqb_spec th 0) as [->|Hn].
  - rewrite sin_0, cos_0. ring.
  - pose proof (sin2_cos2' ph) as E1. pose proof (sin2_cos2' th) as E2.
    assert (sin th * sin th = 1 - cos th * cos th) as Et by lra.
    transitivity (sin th * sin th * (sin ph * sin ph + cos ph * cos ph) + tb * cos th * sin th * (sin ph * sin ph + cos ph * cos ph)
      + cos th * cos th - tb * sin th * cos th); [ring|]. rewrite E1, Et. ring.
Qed.

Lemma tan_proj_x : tan (proj_x th ph) = sin th * cos ph / cos th.
Proof. unfold proj_x. rewrite tan_atan. unfold tan. field. pose proof costh_pos; lra. Qed.
Lemma tan_proj_y : tan (proj_y th ph) = sin th * sin ph / cos th.
Proof. unfold proj_y. rewrite tan_atan. unfold tan. field. pose proof costh_pos; lra. Qed.
Lemma open_proj_x : open_half (proj_x th ph).
Proof. unfold proj_x, open_half. pose proof (atan_bound (tan th * cos ph)). lra. Qed.
Lemma open_proj_y : open_half (proj_y th ph).
Proof. unfold proj_y, open_half. pose proof (atan_bound (tan th * sin ph)). lra. Qed.

Lemma r_fin : xsqrt (xadd (xadd (xsquare (xtan (Fin (proj_x th ph)))) (xsquare (xtan (Fin (proj_y th ph))))) (xsquare (Fin 1))) = Fin (/ cos th).
Proof.
  rewrite (xtan_open _ open_proj_x), (xtan_open _ open_proj_y). unfold xsquare; cbn [xmul xadd].
  pose proof costh_pos as Hc. rewrite tan_proj_x, tan_proj_y.
  assert (sin th * cos ph / cos th * (sin th * cos ph / cos th) + sin th * sin ph / cos th * (sin th * sin ph / cos th) + 1 * 1 = / cos th * / cos th) as ->.
  { apply (Rmult_eq_reg_r (cos th * cos th)); [|nra].
    transitivity (sin th * sin th * (sin ph * sin ph + cos ph * cos ph) + cos th * cos th); [field; lra|].
    rewrite sin2_cos2', Rmult_1_r, sin2_cos2'. field; lra. }
  assert (0 < / cos th) by (apply Rinv_0_lt_compat; auto).
  rewrite xsqrt_fin by nra. f_equal. apply sqrt_square; lra.
Qed.
End Deflect.

Lemma pdg_deflection x0 th ph p st d a b :
  0 < x0 -> 0 < p -> 0 < st -> 0 <= th < PI / 2 ->
  a = Rmin (z2x d * pdg_width (st / x0) p) (PI / (22 / 10)) -> b = Rmin (z2y d * pdg_width (st / x0) p) (PI / (22 / 10)) ->
  open_half a -> open_half b -> out2 th b <> 0 ->
  let s := pdg_scatter1 (Fin x0) (Fin th) (Fin ph) (Fin (proj_x th ph)) (Fin (proj_y th ph)) (Fin p) (Fin st) d in
  s_dtheta_x_vol s = Fin (atan (out0 th ph a b / out2 th b) - proj_x th ph)
  /\ s_dtheta_y_vol s = Fin (atan (out1 th ph a b / out2 th b) - proj_y th ph).
Proof.
  intros Hx0 Hp Hst Hth Ea Eb Ha Hb Ho. cbv zeta. unfold pdg_scatter1. cbv zeta.
  rewrite theta0_fin by auto. rewrite (r_fin th ph Hth).
  cbn [s_dtheta_x_vol s_dtheta_y_vol]. cbn [xmul xclamp_max]. rewrite <- Ea, <- Eb.
  rewrite (xtan_open _ (open_proj_x th ph)), (xtan_open _ (open_proj_y th ph)), (xtan_open _ Ha), (xtan_open _ Hb).
  rewrite tan_proj_x, tan_proj_y by auto.
  pose proof (costh_pos th Hth) as Hc.
  cbn [xeq xopp]. unfold xsub, xsin, xcos, xwhere. cbn [xmul xfun xopp xadd].
  assert (forall A B, B <> 0 -> xatan (xdiv (Fin A) (Fin B)) = Fin (atan (A / B))) as K by (intros A B HB; rewrite xdiv_fin by auto; reflexivity).
  unfold out0, out1, out2, rot_x, rot_y, rot_z in *.
  destruct (Reqb_spec th 0) as [Hz|Hn]; cbn [negb].
  - subst th. rewrite sin_0, cos_0 in *. rewrite !K by lra. cbn [xadd]. split; f_equal; unfold Rminus; f_equal; f_equal; field.
  - assert (-(1) + / cos th * tan b * sin th = (- cos th + tan b * sin th) / cos th) as E2 by (field; lra).
    assert (- (1) + / cos th * tan b * sin th <> 0) as Hne.
    { rewrite E2. intro Hz. apply Ho. apply (Rmult_eq_reg_r (/ cos th)); [|apply Rinv_neq_0_compat; lra].
      unfold Rdiv in Hz. rewrite Hz. ring. }
    rewrite !K by auto. cbn [xadd]. rewrite E2.
    split; f_equal; unfold Rminus; f_equal; f_equal; field; split; lra || auto.
Qed.

(* projected angles determine the direction *)
Lemma dir_of_proj t p : 0 <= t < PI / 2 ->
  dir t p = (cos t * tan (proj_x t p), cos t * tan (proj_y t p), - cos t).
Proof.
  intro Ht. rewrite tan_proj_x, tan_proj_y by auto. pose proof (costh_pos t Ht). unfold dir. f_equal. f_equal; field; lra.
Qed.
Lemma cos_of_proj t p : 0 <= t < PI / 2 ->
  cos t = / sqrt (1 + tan (proj_x t p) * tan (proj_x t p) + tan (proj_y t p) * tan (proj_y t p)).
Proof.
  intro Ht. pose proof (costh_pos t Ht) as Hc. rewrite tan_proj_x, tan_proj_y by auto.
  assert (1 + sin t * cos p / cos t * (sin t * cos p / cos t) + sin t * sin p / cos t * (sin t * sin p / cos t) = (/ cos t) * (/ cos t)) as ->.
  { apply (Rmult_eq_reg_r (cos t * cos t)); [|nra].
    transitivity (sin t * sin t * (sin p * sin p + cos p * cos p) + cos t * cos t); [field; lra|].
    rewrite sin2_cos2', Rmult_1_r, sin2_cos2'. field; lra. }
  assert (0 < / cos t) by (apply Rinv_0_lt_compat; auto).
  rewrite sqrt_square by lra. rewrite Rinv_inv; auto.
Qed.

(* the new direction makes the drawn angle with the old one *)
Lemma deflection_angle th ph a b t p :
  0 <= th < PI / 2 -> open_half a -> open_half b -> out2 th b < 0 -> 0 <= t < PI / 2 ->
  proj_x t p = atan (out0 th ph a b / out2 th b) -> proj_y t p = atan (out1 th ph a b / out2 th b) ->
  dot3 (dir th ph) (dir t p) = / sqrt (1 + tan a * tan a + tan b * tan b).
Proof.
  intros Hth Ha Hb Ho Ht Ex Ey.
  rewrite (dir_of_proj t p Ht), (cos_of_proj t p Ht), Ex, Ey, !tan_atan.
  pose proof (out_norm th ph Hth a b) as En. pose proof (out_dot th ph Hth a b) as Ed.
  set (o0 := out0 th ph a b) in *. set (o1 := out1 th ph a b) in *. set (o2 := out2 th b) in *.
  assert (1 + o0 / o2 * (o0 / o2) + o1 / o2 * (o1 / o2) = (1 + tan a * tan a + tan b * tan b) * ((/ - o2) * (/ - o2))) as ->.
  { rewrite <- En. field. lra. }
  assert (0 < / - o2) as Hi by (apply Rinv_0_lt_compat; lra).
  assert (0 < 1 + tan a * tan a + tan b * tan b) as Hs by nra.
  rewrite sqrt_mult_alt by lra. rewrite sqrt_square by lra.
  pose proof (sqrt_lt_R0 _ Hs) as Hq. set (q := sqrt _) in *.
  unfold dot3, dir.
  transitivity ((o0 * - (sin th * cos ph) + o1 * - (sin th * sin ph) + o2 * - cos th) / q); [field; lra|].
  rewrite Ed. field; lra.
Qed.

(* C14 *)
Lemma displacement_transverse x0 th ph p st d tx ty :
  0 < x0 -> 0 < p -> 0 < st ->
  let s := pdg_scatter1 (Fin x0) (Fin th) (Fin ph) tx ty (Fin p) (Fin st) d in
  let dx := st * pdg_width (st / x0) p * (z1x d / sqrt 12 + z2x d / 2) in
  let dy := st * pdg_width (st / x0) p * (z1y d / sqrt 12 + z2y d / 2) in
  exists vx vy vz, s_dx_vol s = Fin vx /\ s_dy_vol s = Fin vy /\ s_dz_vol s = Fin vz
    /\ dot3 (vx, vy, vz) (dir th ph) = 0
    /\ sqrt (dot3 (vx, vy, vz) (vx, vy, vz)) = sqrt (dx * dx + dy * dy).
Proof.
  intros Hx Hp Hs s dx dy. destruct (pdg_displacement x0 th ph p st d Hx Hp Hs tx ty) as (E1 & E2 & E3 & _).
  do 3 eexists. split; [exact E1|]. split; [exact E2|]. split; [exact E3|].
  destruct (rot_ortho th ph dx dy) as [O1 O2]. split; [exact O1|]. f_equal. exact O2.
Qed.

Lemma out2_sign th b : out2 th b = - (cos th - tan b * sin th).
Proof.
  unfold out2, rot_z. destruct (Reqb_spec th 0) as [->|]; [rewrite sin_0, cos_0|]; ring.
Qed.

Lemma out2_sign_pos th b : 0 < cos th - tan b * sin th -> out2 th b < 0.
Proof. rewrite out2_sign; lra. Qed.

Lemma clamped_open z w : - (PI / 2) < z * w -> open_half (Rmin (z * w) (PI / (22 / 10))).
Proof.
  intro Hl. pose proof PI_pos. assert (PI / (22 / 10) < PI / 2) by lra.
  unfold open_half, Rmin. destruct (Rle_dec _ _); lra.
Qed.

(* C15 *)
Lemma deflection_by_drawn_angle x0 th ph p st d :
  0 < x0 -> 0 < p -> 0 < st -> 0 <= th < PI / 2 ->
  let s := pdg_scatter1 (Fin x0) (Fin th) (Fin ph) (Fin (proj_x th ph)) (Fin (proj_y th ph)) (Fin p) (Fin st) d in
  forall a b, s_dtheta_x_m s = Fin a -> s_dtheta_y_m s = Fin b -> open_half a -> open_half b ->
  0 < cos th - tan b * sin th ->
  exists dtx dty, s_dtheta_x_vol s = Fin dtx /\ s_dtheta_y_vol s = Fin dty
    /\ open_half (proj_x th ph + dtx) /\ open_half (proj_y th ph + dty)
    /\ forall t f, 0 <= t < PI / 2 -> proj_x t f = proj_x th ph + dtx -> proj_y t f = proj_y th ph + dty ->
       dot3 (dir th ph) (dir t f) = / sqrt (1 + tan a * tan a + tan b * tan b).
Proof.
  intros Hx Hp Hs Hth s a b Ea Eb Ha Hb Hd. apply out2_sign_pos in Hd.
  destruct (pdg_displacement x0 th ph p st d Hx Hp Hs (Fin (proj_x th ph)) (Fin (proj_y th ph))) as (_ & _ & _ & E4 & E5).
  fold s in E4, E5. rewrite E4 in Ea. rewrite E5 in Eb. injection Ea as Ea. injection Eb as Eb. symmetry in Ea, Eb.
  destruct (pdg_deflection x0 th ph p st d a b Hx Hp Hs Hth Ea Eb Ha Hb ltac:(lra)) as [E1 E2]. fold s in E1, E2.
  do 2 eexists. split; [exact E1|]. split; [exact E2|].
  assert (forall u v, proj_x th ph + (atan u - proj_x th ph) = atan u /\ proj_y th ph + (atan v - proj_y th ph) = atan v) as K by (intros; split; ring).
  destruct (K (out0 th ph a b / out2 th b) (out1 th ph a b / out2 th b)) as [K1 K2]. rewrite K1, K2.
  split; [unfold open_half; pose proof (atan_bound (out0 th ph a b / out2 th b)); lra|].
  split; [unfold open_half; pose proof (atan_bound (out1 th ph a b / out2 th b)); lra|].
  intros t f Ht Ex Ey. eapply deflection_angle; eauto.
Qed.

(* the new direction, as a positive or negative multiple of the vector the code computes *)
Lemma new_direction th ph a b t p :
  0 <= th < PI / 2 -> out2 th b <> 0 -> 0 <= t < PI / 2 ->
  proj_x t p = atan (out0 th ph a b / out2 th b) -> proj_y t p = atan (out1 th ph a b / out2 th b) ->
  dir t p = (cos t / - out2 th b * - out0 th ph a b, cos t / - out2 th b * - out1 th ph a b, cos t / - out2 th b * out2 th b).
Proof.
  intros Hth Ho Ht Ex Ey. rewrite (dir_of_proj t p Ht), Ex, Ey, !tan_atan. f_equal; [f_equal|]; field; auto.
Qed.

(* C66: displacement and deflection *)
Lemma opposite_side x0 th ph p st d :
  0 < x0 -> 0 < p -> 0 < st -> 0 <= th < PI / 2 -> 0 < pdg_width (st / x0) p ->
  z1x d = 0 -> z1y d = 0 -> ~ (z2x d = 0 /\ z2y d = 0) ->
  let s := pdg_scatter1 (Fin x0) (Fin th) (Fin ph) (Fin (proj_x th ph)) (Fin (proj_y th ph)) (Fin p) (Fin st) d in
  forall a b, s_dtheta_x_m s = Fin a -> s_dtheta_y_m s = Fin b -> open_half a -> open_half b ->
  0 < cos th - tan b * sin th ->
  exists vx vy vz dtx dty, s_dx_vol s = Fin vx /\ s_dy_vol s = Fin vy /\ s_dz_vol s = Fin vz
    /\ s_dtheta_x_vol s = Fin dtx /\ s_dtheta_y_vol s = Fin dty
    /\ dot3 (vx, vy, vz) (dir th ph) = 0
    /\ forall t f, 0 <= t < PI / 2 -> proj_x t f = proj_x th ph + dtx -> proj_y t f = proj_y th ph + dty ->
       dot3 (vx, vy, vz) (dir t f) < 0.
Proof.
  intros Hx Hp Hs Hth Hw Z1 Z2 Hz s a b Ea Eb Ha Hb Hd. apply out2_sign_pos in Hd.
  destruct (pdg_displacement x0 th ph p st d Hx Hp Hs (Fin (proj_x th ph)) (Fin (proj_y th ph))) as (D1 & D2 & D3 & E4 & E5).
  fold s in D1, D2, D3, E4, E5. rewrite E4 in Ea. rewrite E5 in Eb. injection Ea as Ea. injection Eb as Eb. symmetry in Ea, Eb.
  destruct (pdg_deflection x0 th ph p st d a b Hx Hp Hs Hth Ea Eb Ha Hb ltac:(lra)) as [E1 E2]. fold s in E1, E2.
  do 5 eexists. split; [exact D1|]. split; [exact D2|]. split; [exact D3|]. split; [exact E1|]. split; [exact E2|].
  set (A := off_x st (st / x0) p d). set (B := off_y st (st / x0) p d).
  destruct (rot_ortho th ph A B) as [O1 O2]. split; [exact O1|].
  intros t f Ht Ex Ey. ring_simplify (proj_x th ph + (atan (out0 th ph a b / out2 th b) - proj_x th ph)) in Ex.
  ring_simplify (proj_y th ph + (atan (out1 th ph a b / out2 th b) - proj_y th ph)) in Ey.
  rewrite (new_direction th ph a b t f Hth ltac:(lra) Ht Ex Ey).
  set (q := cos t / - out2 th b). assert (0 < q) as Hq.
  { apply Rdiv_lt_0_compat; [apply costh_pos; auto|lra]. }
  assert (dot3 (rot_x th ph A B, rot_y th ph A B, - rot_z th B) (q * - out0 th ph a b, q * - out1 th ph a b, q * out2 th b)
          = q * (dot3 (rot_x th ph A B, rot_y th ph A B, - rot_z th B) (dir th ph) - (tan a * A + tan b * B))) as ->.
  { unfold dot3, dir, out0, out1, out2, rot_x, rot_y, rot_z. destruct (Reqb_spec th 0) as [->|Hn].
    - rewrite sin_0, cos_0. ring.
    - pose proof (sin2_cos2' ph) as P1. pose proof (sin2_cos2' th) as P2.
      apply Rminus_diag_uniq.
      transitivity (q * (tan a * A * (1 - (sin ph * sin ph + cos ph * cos ph)) + tan b * B * (1 - (cos th * cos th * (sin ph * sin ph + cos ph * cos ph) + sin th * sin th)))).
      + ring.
      + rewrite P1. replace (cos th * cos th * 1 + sin th * sin th) with 1 by lra. ring. }
  rewrite O1.
  (* signs: tan a and A have the same sign *)
  assert (forall z, let u := Rmin (z * pdg_width (st / x0) p) (PI / (22 / 10)) in
     open_half u -> (z = 0 -> tan u * (st * pdg_width (st / x0) p * (0 / sqrt 12 + z / 2)) = 0) /\
                    (z <> 0 -> 0 < tan u * (st * pdg_width (st / x0) p * (0 / sqrt 12 + z / 2)))) as Sg.
  { intros z u Hu. pose proof PI_pos as HP. set (w := pdg_width (st / x0) p) in *.
    assert (0 < sqrt 12) by (apply sqrt_lt_R0; lra).
    assert (st * w * (0 / sqrt 12 + z / 2) = st * w * z / 2) as -> by (field; lra).
    assert (0 < st * w) by nra.
    split; [intros ->; field; lra|]. intro Hne. destruct (Rtotal_order z 0) as [Hl|[|Hg]]; [|lra|].
    - assert (u = z * w) as Eu by (unfold u, Rmin; destruct (Rle_dec _ _); auto; nra).
      assert (tan u < 0) by (apply tan_sign_neg; auto; rewrite Eu; nra).
      assert (st * w * z / 2 < 0) by nra. nra.
    - assert (0 < u) by (unfold u, Rmin; destruct (Rle_dec _ _); [nra|lra]).
      assert (0 < tan u) by (apply tan_sign_pos; auto). assert (0 < st * w * z / 2) by nra. nra. }
  assert (0 < tan a * A + tan b * B); [|nra].
  unfold A, B, off_x, off_y. rewrite Z1, Z2.
  destruct (Sg (z2x d)) as [X0 X1]; [rewrite <- Ea; auto|]. destruct (Sg (z2y d)) as [Y0 Y1]; [rewrite <- Eb; auto|].
  rewrite <- Ea in X0, X1. rewrite <- Eb in Y0, Y1.
  destruct (Req_dec (z2x d) 0) as [Hzx|Hzx]; destruct (Req_dec (z2y d) 0) as [Hzy|Hzy];
    [exfalso; auto | rewrite X0; auto; specialize (Y1 Hzy); lra | rewrite Y0; auto; specialize (X1 Hzx); lra
    | specialize (X1 Hzx); specialize (Y1 Hzy); lra].
Qed.

(* C67: deflected upwards: the direction is turned round instead *)
Lemma upward_folded x0 th ph p st d :
  0 < x0 -> 0 < p -> 0 < st -> 0 <= th < PI / 2 ->
  let s := pdg_scatter1 (Fin x0) (Fin th) (Fin ph) (Fin (proj_x th ph)) (Fin (proj_y th ph)) (Fin p) (Fin st) d in
  forall a b, s_dtheta_x_m s = Fin a -> s_dtheta_y_m s = Fin b -> open_half a -> open_half b ->
  cos th - tan b * sin th < 0 ->
  exists dtx dty, s_dtheta_x_vol s = Fin dtx /\ s_dtheta_y_vol s = Fin dty
    /\ open_half (proj_x th ph + dtx) /\ open_half (proj_y th ph + dty)
    /\ forall t f, 0 <= t < PI / 2 -> proj_x t f = proj_x th ph + dtx -> proj_y t f = proj_y th ph + dty ->
       dot3 (dir th ph) (dir t f) = - / sqrt (1 + tan a * tan a + tan b * tan b).
Proof.
  intros Hx Hp Hs Hth s a b Ea Eb Ha Hb Hd.
  assert (0 < out2 th b) as Ho by (rewrite out2_sign; lra).
  destruct (pdg_displacement x0 th ph p st d Hx Hp Hs (Fin (proj_x th ph)) (Fin (proj_y th ph))) as (_ & _ & _ & E4 & E5).
  fold s in E4, E5. rewrite E4 in Ea. rewrite E5 in Eb. injection Ea as Ea. injection Eb as Eb. symmetry in Ea, Eb.
  destruct (pdg_deflection x0 th ph p st d a b Hx Hp Hs Hth Ea Eb Ha Hb ltac:(lra)) as [E1 E2]. fold s in E1, E2.
  do 2 eexists. split; [exact E1|]. split; [exact E2|].
  assert (forall u v, proj_x th ph + (atan u - proj_x th ph) = atan u /\ proj_y th ph + (atan v - proj_y th ph) = atan v) as K by (intros; split; ring).
  destruct (K (out0 th ph a b / out2 th b) (out1 th ph a b / out2 th b)) as [K1 K2]. rewrite K1, K2.
  split; [unfold open_half; pose proof (atan_bound (out0 th ph a b / out2 th b)); lra|].
  split; [unfold open_half; pose proof (atan_bound (out1 th ph a b / out2 th b)); lra|].
  intros t f Ht Ex Ey.
  rewrite (dir_of_proj t f Ht), (cos_of_proj t f Ht), Ex, Ey, !tan_atan.
  pose proof (out_norm th ph Hth a b) as En. pose proof (out_dot th ph Hth a b) as Ed.
  set (o0 := out0 th ph a b) in *. set (o1 := out1 th ph a b) in *. set (o2 := out2 th b) in *.
  assert (1 + o0 / o2 * (o0 / o2) + o1 / o2 * (o1 / o2) = (1 + tan a * tan a + tan b * tan b) * ((/ o2) * (/ o2))) as ->.
  { rewrite <- En. field. lra. }
  assert (0 < / o2) as Hi by (apply Rinv_0_lt_compat; lra).
  assert (0 < 1 + tan a * tan a + tan b * tan b) as Hq0 by nra.
  rewrite sqrt_mult_alt by lra. rewrite sqrt_square by lra.
  pose proof (sqrt_lt_R0 _ Hq0) as Hq. set (q := sqrt _) in *.
  unfold dot3, dir.
  transitivity (- (o0 * - (sin th * cos ph) + o1 * - (sin th * sin ph) + o2 * - cos th) / q); [field; lra|].
  rewrite Ed. field; lra.
Qed.

(* one radiation length at p = 0.0136 GeV: width 1 *)
Lemma width_one x : 0 < x -> pdg_width (x / x) (136 / 10000) = 1.
Proof.
  intro Hx. unfold pdg_width. replace (x / x) with 1 by (field; lra). rewrite sqrt_1, ln_1. field.
Qed.

(* C16 *)
Lemma angle_not_limited :
  exists x0 th ph p st d a,
    0 < x0 /\ 0 < p /\ 0 < st /\ 0 <= th < PI / 2 /\
    s_dtheta_x_m (pdg_scatter1 (Fin x0) (Fin th) (Fin ph) (Fin (proj_x th ph)) (Fin (proj_y th ph)) (Fin p) (Fin st) d) = Fin a
    /\ a < - PI.
Proof.
  exists 1, 0, 0, (136 / 10000), 1, (Draw 0 0 (-10) 0), (-10).
  pose proof PI_pos. pose proof PI_4.
  split; [lra|]. split; [lra|]. split; [lra|]. split; [lra|]. split; [|lra].
  destruct (pdg_displacement 1 0 0 (136 / 10000) 1 (Draw 0 0 (-10) 0) ltac:(lra) ltac:(lra) ltac:(lra) (Fin (proj_x 0 0)) (Fin (proj_y 0 0))) as (_ & _ & _ & E & _).
  rewrite E. rewrite width_one by lra. cbn [z2x]. f_equal. unfold Rmin. destruct (Rle_dec _ _); lra.
Qed.
Lemma angle_limited_above x0 th ph p st d tx ty :
  0 < x0 -> 0 < p -> 0 < st ->
  let s := pdg_scatter1 (Fin x0) (Fin th) (Fin ph) tx ty (Fin p) (Fin st) d in
  exists a b, s_dtheta_x_m s = Fin a /\ s_dtheta_y_m s = Fin b /\ a < PI / 2 /\ b < PI / 2.
Proof.
  intros Hx Hp Hs s. destruct (pdg_displacement x0 th ph p st d Hx Hp Hs tx ty) as (_ & _ & _ & E4 & E5).
  do 2 eexists. split; [exact E4|]. split; [exact E5|]. pose proof PI_pos.
  split; (eapply Rle_lt_trans; [apply Rmin_r|]; lra).
Qed.

Lemma atan_nonneg x : 0 <= x -> 0 <= atan x.
Proof. intros [H| <-]; [left; rewrite <- atan_0; now apply atan_increasing|rewrite atan_0; lra]. Qed.
(* every pair of projected angles belongs to some downward direction *)
Lemma some_direction tx ty : open_half tx -> open_half ty -> exists t f, 0 <= t < PI / 2 /\ proj_x t f = tx /\ proj_y t f = ty.
Proof.
  intros Hx Hy. destruct (Req_EM_T tx 0) as [->|N1]; [destruct (Req_EM_T ty 0) as [->|N2]|].
  - exists 0, 0. pose proof PI_pos. split; [lra|]. unfold proj_x, proj_y. rewrite tan_0, !Rmult_0_l, atan_0. auto.
  - exists (atan (sqrt (tan 0 * tan 0 + tan ty * tan ty))), (phi_of 0 ty). split; [|apply proj_back; auto; tauto]. split; [|apply atan_bound]. apply atan_nonneg, sqrt_pos.
  - exists (atan (sqrt (tan tx * tan tx + tan ty * tan ty))), (phi_of tx ty). split; [|apply proj_back; auto; tauto]. split; [|apply atan_bound]. apply atan_nonneg, sqrt_pos.
Qed.
