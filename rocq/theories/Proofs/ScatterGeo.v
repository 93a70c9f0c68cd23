(* Geometry of inferred scatterings: C27, C29-C32. *)
From Coq Require Import Psatz.
From Verif Require Import Base.Trig Model.Scatter Spec.ScatterSpec Spec.LayerSpec.
Open Scope R_scope.
Open Scope list_scope.

Definition cross3 (a b : R3) : R3 :=
  let '(a1, a2, a3) := a in let '(b1, b2, b3) := b in (a2 * b3 - a3 * b2, a3 * b1 - a1 * b3, a1 * b2 - a2 * b1).

Lemma vcross_fv a b : vcross (fv a) (fv b) = fv (cross3 a b).
Proof. destruct a as [[a1 a2] a3], b as [[b1 b2] b3]. reflexivity. Qed.
Lemma vdot_fv a b : vdot (fv a) (fv b) = Fin (dot3 a b).
Proof. destruct a as [[a1 a2] a3], b as [[b1 b2] b3]. reflexivity. Qed.
Lemma dot3_nonneg a : 0 <= dot3 a a.
Proof. destruct a as [[x y] z]. simpl. nra. Qed.
Lemma vnorm_fv a : vnorm (fv a) = Fin (norm3 a).
Proof. unfold vnorm. rewrite vdot_fv. apply xsqrt_fin, dot3_nonneg. Qed.
Lemma vadd_fv a b : vadd (fv a) (fv b) = fv (add3 a b).
Proof. destruct a as [[a1 a2] a3], b as [[b1 b2] b3]. reflexivity. Qed.
Lemma vsub_fv a b : vsub (fv a) (fv b) = fv (sub3 a b).
Proof. destruct a as [[a1 a2] a3], b as [[b1 b2] b3]. reflexivity. Qed.
Lemma vscale_fv k a : vscale (Fin k) (fv a) = fv (scale3 k a).
Proof. destruct a as [[a1 a2] a3]. reflexivity. Qed.
Lemma vopp_fv a : vmap xopp (fv a) = fv (scale3 (-1) a).
Proof. destruct a as [[a1 a2] a3]. unfold vmap, fv. simpl. f_equal; f_equal; ring. Qed.
Lemma fin3_fv a : fin3 (fv a) = Some a.
Proof. destruct a as [[a1 a2] a3]. reflexivity. Qed.
Lemma fv_inj a b : fv a = fv b -> a = b.
Proof. destruct a as [[a1 a2] a3], b as [[b1 b2] b3]. unfold fv. congruence. Qed.

Lemma dot3_zero a : dot3 a a = 0 -> a = (0, 0, 0).
Proof. destruct a as [[x y] z]. simpl. intro H. assert (x = 0) by nra. assert (y = 0) by nra. assert (z = 0) by nra. congruence. Qed.

Lemma cross_nonzero a b : not_parallel a b -> dot3 (cross3 a b) (cross3 a b) <> 0.
Proof.
  intros H E. apply dot3_zero in E.
  assert (P : scale3 (dot3 b b) a = scale3 (dot3 a b) b).
  { destruct a as [[a1 a2] a3], b as [[b1 b2] b3]. unfold cross3 in E. injection E as E1 E2 E3. simpl. f_equal; [f_equal|]; apply Rminus_diag_uniq.
    - transitivity (b2 * (a1 * b2 - a2 * b1) - b3 * (a3 * b1 - a1 * b3)); [ring|]. rewrite E2, E3. ring.
    - transitivity (b3 * (a2 * b3 - a3 * b2) - b1 * (a1 * b2 - a2 * b1)); [ring|]. rewrite E1, E3. ring.
    - transitivity (b1 * (a3 * b1 - a1 * b3) - b2 * (a2 * b3 - a3 * b2)); [ring|]. rewrite E1, E2. ring. }
  apply H in P as [P _]. apply dot3_zero in P. subst b.
  assert (P : scale3 0 a = scale3 1 (0, 0, 0)). { destruct a as [[a1 a2] a3]. simpl. f_equal; [f_equal|]; ring. }
  apply H in P. lra.
Qed.

Lemma cramer a b c r : det3 a b c <> 0 ->
  add3 (add3 (scale3 (det3 r b c / det3 a b c) a) (scale3 (det3 a r c / det3 a b c) b)) (scale3 (det3 a b r / det3 a b c) c) = r.
Proof.
  destruct a as [[a1 a2] a3], b as [[b1 b2] b3], c as [[c1 c2] c3], r as [[r1 r2] r3]. cbn [det3 scale3 add3].
  intro H. f_equal; [f_equal|]; field; auto.
Qed.

Lemma det_cross v1 v2 : det3 v1 (scale3 (-1) v2) (cross3 v1 v2) = - dot3 (cross3 v1 v2) (cross3 v1 v2).
Proof. destruct v1 as [[a1 a2] a3], v2 as [[b1 b2] b3]. simpl. ring. Qed.

Lemma coefs_fin v1 p1 v2 p2 : dot3 (cross3 v1 v2) (cross3 v1 v2) <> 0 ->
  exists c0 c1 c2, coefs1 (ftrack v1 p1, ftrack v2 p2) = Ok (fv (c0, c1, c2))
    /\ add3 (on_line p1 v1 c0) (scale3 c2 (cross3 v1 v2)) = on_line p2 v2 c1.
Proof.
  intro N. unfold coefs1, ftrack. cbn [fst snd t_vec t_start]. rewrite vopp_fv, vcross_fv, vsub_fv.
  unfold solve3. rewrite !fin3_fv. cbv zeta.
  assert (D : det3 v1 (scale3 (-1) v2) (cross3 v1 v2) <> 0) by (rewrite det_cross; lra).
  destruct (Reqb_spec (det3 v1 (scale3 (-1) v2) (cross3 v1 v2)) 0) as [E|_]; [contradiction|].
  pose proof (cramer _ _ _ (sub3 p2 p1) D) as C.
  eexists _, _, _. split; [reflexivity|].
  set (c0 := det3 (sub3 p2 p1) _ _ / _) in *. set (c1 := det3 v1 (sub3 p2 p1) _ / _) in *. set (c2 := det3 v1 _ (sub3 p2 p1) / _) in *.
  unfold on_line. clearbody c0 c1 c2. clear N D.
  set (n := cross3 v1 v2) in *. clearbody n.
  destruct v1 as [[a1 a2] a3], v2 as [[b1 b2] b3], p1 as [[d1 d2] d3], p2 as [[e1 e2] e3], n as [[n1 n2] n3].
  cbn [add3 scale3 sub3] in *. injection C as C1 C2 C3. f_equal; [f_equal|]; lra.
Qed.

Lemma poca_fin v1 p1 v2 p2 c0 c1 c2 :
  poca1 (ftrack v1 p1, ftrack v2 p2) (fv (c0, c1, c2)) = fv (add3 (on_line p1 v1 c0) (scale3 (c2 / 2) (cross3 v1 v2))).
Proof.
  unfold poca1, ftrack. cbn [fst snd t_vec t_start]. rewrite vcross_fv. cbn [fv vx vz]. rewrite !vscale_fv, vadd_fv.
  fold (on_line p1 v1 c0). set (q := on_line p1 v1 c0). set (n := cross3 v1 v2). clearbody q n.
  destruct q as [[q1 q2] q3], n as [[n1 n2] n3]. unfold vadd, vmap. cbn [fv scale3 vx vy vz add3]. rewrite !xdiv_fin by lra. cbn [xadd].
  f_equal; f_equal; field.
Qed.

Lemma ortho v1 v2 : dot3 (cross3 v1 v2) v1 = 0 /\ dot3 (cross3 v1 v2) v2 = 0.
Proof. destruct v1 as [[a1 a2] a3], v2 as [[b1 b2] b3]. simpl. split; ring. Qed.

Lemma poca_spec v1 p1 v2 p2 : not_parallel v1 v2 ->
  exists c s t, coefs1 (ftrack v1 p1, ftrack v2 p2) = Ok c
    /\ poca1 (ftrack v1 p1, ftrack v2 p2) c = fv (midpoint (on_line p1 v1 s) (on_line p2 v2 t))
    /\ forall s' t', distance (on_line p1 v1 s) (on_line p2 v2 t) <= distance (on_line p1 v1 s') (on_line p2 v2 t').
Proof.
  intro N. apply cross_nonzero in N. destruct (coefs_fin v1 p1 v2 p2 N) as (c0 & c1 & c2 & E & C).
  exists (fv (c0, c1, c2)), c0, c1. split; [auto|]. split.
  - rewrite poca_fin, <- C. f_equal. set (q := on_line p1 v1 c0). set (n := cross3 v1 v2). clearbody q n.
    destruct q as [[q1 q2] q3], n as [[n1 n2] n3]. unfold midpoint. cbn [add3 scale3]. f_equal; [f_equal|]; field.
  - intros s' t'. unfold distance, norm3. apply sqrt_le_1; try apply dot3_nonneg.
    destruct (ortho v1 v2) as [O1 O2]. clear E N. set (n := cross3 v1 v2) in *. clearbody n.
    unfold on_line in *. destruct v1 as [[a1 a2] a3], v2 as [[b1 b2] b3], p1 as [[d1 d2] d3], p2 as [[e1 e2] e3], n as [[n1 n2] n3].
    cbn [add3 scale3 sub3 dot3] in *. injection C as C1 C2 C3.
    set (k := c2) in *.
    replace (d1 + c0 * a1 - (e1 + c1 * b1)) with (- (k * n1)) by lra.
    replace (d2 + c0 * a2 - (e2 + c1 * b2)) with (- (k * n2)) by lra.
    replace (d3 + c0 * a3 - (e3 + c1 * b3)) with (- (k * n3)) by lra.
    set (w1 := (s' - c0) * a1 - (t' - c1) * b1). set (w2 := (s' - c0) * a2 - (t' - c1) * b2). set (w3 := (s' - c0) * a3 - (t' - c1) * b3).
    replace (d1 + s' * a1 - (e1 + t' * b1)) with (w1 - k * n1) by (unfold w1; lra).
    replace (d2 + s' * a2 - (e2 + t' * b2)) with (w2 - k * n2) by (unfold w2; lra).
    replace (d3 + s' * a3 - (e3 + t' * b3)) with (w3 - k * n3) by (unfold w3; lra).
    assert (W : n1 * w1 + n2 * w2 + n3 * w3 = 0).
    { unfold w1, w2, w3. replace (_ + _ + _) with ((s' - c0) * (n1 * a1 + n2 * a2 + n3 * a3) - (t' - c1) * (n1 * b1 + n2 * b2 + n3 * b3)) by ring. rewrite O1, O2. ring. }
    assert (E : (w1 - k * n1) * (w1 - k * n1) + (w2 - k * n2) * (w2 - k * n2) + (w3 - k * n3) * (w3 - k * n3)
      = (w1 * w1 + w2 * w2 + w3 * w3) - 2 * k * (n1 * w1 + n2 * w2 + n3 * w3) + (- (k * n1) * - (k * n1) + - (k * n2) * - (k * n2) + - (k * n3) * - (k * n3))) by ring.
    rewrite E, W. pose proof (Rle_0_sqr w1). pose proof (Rle_0_sqr w2). pose proof (Rle_0_sqr w3). unfold Rsqr in *. lra.
Qed.

Lemma norm3_zero a : norm3 a = 0 -> a = (0, 0, 0).
Proof. intro H. apply dot3_zero. apply sqrt_eq_0 in H; auto using dot3_nonneg. Qed.

Lemma poca_meet v1 p1 v2 p2 q s t : not_parallel v1 v2 -> on_line p1 v1 s = q -> on_line p2 v2 t = q ->
  exists c, coefs1 (ftrack v1 p1, ftrack v2 p2) = Ok c /\ poca1 (ftrack v1 p1, ftrack v2 p2) c = fv q.
Proof.
  intros N E1 E2. destruct (poca_spec v1 p1 v2 p2 N) as (c & s0 & t0 & Ec & Ep & M). exists c. split; [auto|]. rewrite Ep. f_equal.
  specialize (M s t). rewrite E1, E2 in M.
  assert (Z : distance q q = 0). { unfold distance, norm3. destruct q as [[q1 q2] q3]. simpl. replace (_ + _) with 0 by ring. apply sqrt_0. }
  assert (D0 : distance (on_line p1 v1 s0) (on_line p2 v2 t0) = 0). { apply Rle_antisym; [lra|apply sqrt_pos]. }
  apply norm3_zero in D0.
  assert (E : on_line p1 v1 s0 = on_line p2 v2 t0).
  { destruct (on_line p1 v1 s0) as [[x y] z], (on_line p2 v2 t0) as [[x' y'] z']. simpl in D0. injection D0 as A B C. f_equal; [f_equal|]; lra. }
  assert (P : scale3 (s0 - s) v1 = scale3 (t0 - t) v2).
  { rewrite <- E2 in E1. clear - E E1. unfold on_line in *. destruct v1 as [[a1 a2] a3], v2 as [[b1 b2] b3], p1 as [[d1 d2] d3], p2 as [[e1 e2] e3].
    cbn [add3 scale3] in *. injection E as A B C. injection E1 as A' B' C'. f_equal; [f_equal|]; lra. }
  apply N in P as [P _]. assert (s0 = s) as -> by lra. rewrite <- E, E1. unfold midpoint. destruct q as [[x y] z]. simpl. f_equal; [f_equal|]; field.
Qed.

(* C29 *)
Lemma entry_exit v p zr : z3 v <> 0 ->
  (exists t, xyz_in1 zr (ftrack v p) = fv (on_line p v t) /\ z3 (on_line p v t) = snd zr)
  /\ (exists t, xyz_out1 zr (ftrack v p) = fv (on_line p v t) /\ z3 (on_line p v t) = fst zr).
Proof.
  intro N. destruct v as [[a b] c], p as [[x y] z]. unfold z3 in *. cbn [snd] in N. unfold xyz_in1, xyz_out1, ftrack, on_line.
  cbn [t_vec t_start fv vz]. unfold xsub. cbn [xopp xadd]. rewrite !xdiv_fin by auto. unfold vadd, vsub, vscale, xsub. cbn [vx vy vz xmul xadd xopp].
  split.
  - exists ((snd zr + - z) / c). cbn [scale3 add3 snd]. split; [reflexivity|]. field. auto.
  - exists (- ((z + - fst zr) / c)). cbn [scale3 add3 snd]. split; [unfold fv; f_equal; f_equal; ring|]. field. auto.
Qed.

(* C30 *)
Lemma sqrt_mul_self r : 0 <= r -> sqrt r * sqrt r = r. Proof. apply sqrt_sqrt. Qed.

Lemma phi_spec x y : exists ph, phi1 (Fin x) (Fin y) = Fin ph /\ 0 <= ph < 2 * PI
  /\ sqrt (x * x + y * y) * cos ph = x /\ sqrt (x * x + y * y) * sin ph = y.
Proof.
  pose proof PI_pos as P. unfold phi1. cbn [xeq xlt].
  destruct (Reqb_spec x 0) as [-> |Nx]; cbn [negb andb].
  - destruct (Rltb_spec 0 0) as [|_]; [lra|]. cbn [andb].
    replace (0 * 0 + y * y) with (y * y) by ring. rewrite sqrt_sq_abs.
    destruct (Rltb_spec 0 y) as [L|L].
    + destruct (Rltb_spec y 0); [lra|]. exists (PI / 2). rewrite cos_PI2, sin_PI2, Rabs_pos_eq by lra. repeat split; lra.
    + destruct (Rltb_spec y 0) as [L'|L'].
      * exists (3 * PI / 2). replace (3 * PI / 2) with (3 * (PI / 2)) by field. rewrite cos_3PI2, sin_3PI2, Rabs_left by lra. repeat split; lra.
      * assert (y = 0) as -> by lra. exists 0. rewrite Rabs_R0, cos_0, sin_0. repeat split; lra.
  - rewrite xdiv_fin by auto. cbn [xatan].
    assert (R0 : 0 < sqrt (x * x + y * y)) by (apply norm_pos; auto).
    pose proof (atan_bound (y / x)) as [B1 B2].
    pose proof (cos_atan_ratio x y Nx) as C. pose proof (sin_atan_ratio x y Nx) as S.
    destruct (Rltb_spec x 0) as [L|L].
    + destruct (Rltb_spec 0 x); [lra|]. cbn [andb xadd]. exists (atan (y / x) + PI). split; [auto|]. split; [lra|].
      rewrite neg_cos, neg_sin, C, S, Rabs_left by lra. split; field; lra.
    + destruct (Rltb_spec 0 x) as [L'|]; [|lra]. cbn [andb].
      rewrite Rabs_pos_eq in C, S by lra.
      destruct (Rltb_spec y 0) as [L2|L2]; cbn [xadd].
      * exists (atan (y / x) + 2 * PI). split; [auto|].
        assert (atan (y / x) < 0). { apply atan_sign_neg. apply Ropp_lt_cancel. rewrite Ropp_0. replace (- (y / x)) with (- y / x) by (field; lra). apply Rdiv_lt_0_compat; lra. }
        split; [lra|]. rewrite cos_plus, sin_plus, cos_2PI, sin_2PI, C, S. split; field; lra.
      * exists (atan (y / x)). split; [auto|].
        assert (0 <= atan (y / x)). { apply atan_nonneg. apply Rmult_le_pos; [lra|]. left. apply Rinv_0_lt_compat; auto. }
        split; [lra|]. rewrite C, S. split; field; lra.
Qed.

Lemma norm3_pos a : a <> (0, 0, 0) -> 0 < norm3 a.
Proof. intro H. destruct (sqrt_pos (dot3 a a)) as [L|E]; [auto|]. exfalso. apply H. apply norm3_zero. auto. Qed.
Lemma norm3_sq a : norm3 a * norm3 a = dot3 a a.
Proof. apply sqrt_sqrt, dot3_nonneg. Qed.

Lemma theta_spec v : z3 v < 0 -> exists th, theta1 (fv v) = Fin th /\ 0 <= th < PI / 2
  /\ norm3 v * cos th = - z3 v /\ norm3 v * sin th = sqrt (fst (fst v) * fst (fst v) + snd (fst v) * snd (fst v)).
Proof.
  intro L. pose proof PI_pos as P. destruct v as [[x y] z]. unfold z3 in *. cbn [fst snd] in *.
  assert (N : 0 < norm3 (x, y, z)) by (apply norm3_pos; intro E; injection E; lra).
  pose proof (norm3_sq (x, y, z)) as Q. set (n := norm3 (x, y, z)) in *. cbn [dot3] in Q.
  unfold theta1. rewrite vnorm_fv. fold n. cbn [vz fv xopp]. rewrite xdiv_fin by lra. cbv zeta. cbn [xeq].
  assert (A0 : 0 < - z / n) by (apply Rdiv_lt_0_compat; lra).
  assert (A1 : - z / n <= 1). { apply Rmult_le_reg_r with n; [auto|]. replace (- z / n * n) with (- z) by (field; lra). nra. }
  destruct (Reqb_spec (- z / n) 1) as [E|E]; cbn [negb].
  - exists 0. split; [auto|]. assert (- z = n). { replace (- z) with (- z / n * n) by (field; lra). rewrite E. ring. }
    assert (x * x + y * y = 0) by nra. rewrite H0, sqrt_0, cos_0, sin_0. repeat split; lra.
  - cbn [xacos]. destruct (Rleb_spec (-1) (- z / n)); [|lra]. destruct (Rleb_spec (- z / n) 1); [|lra]. cbn [andb].
    exists (acos (- z / n)). split; [auto|].
    assert (K : -1 <= - z / n <= 1) by lra.
    split. { pose proof (acos_bound (- z / n)) as [B1 B2]. split; [auto|]. apply cos_pos_acute; [lra|]. rewrite cos_acos; auto. }
    rewrite cos_acos, sin_acos by auto. split; [field; lra|].
    transitivity (sqrt (n * n) * sqrt (1 - (- z / n)²)); [rewrite sqrt_square by lra; auto|]. rewrite <- sqrt_mult_alt by nra. f_equal. unfold Rsqr.
    replace (n * n * (1 - - z / n * (- z / n))) with (n * n - z * z) by (field; lra). lra.
Qed.

Lemma theta_phi_direction v : z3 v < 0 -> exists th ph,
  theta1 (fv v) = Fin th /\ phi1 (vx (fv v)) (vy (fv v)) = Fin ph /\ 0 <= th < PI / 2 /\ 0 <= ph < 2 * PI
  /\ scale3 (norm3 v) (direction th ph) = v.
Proof.
  intro L. destruct (theta_spec v L) as (th & E & B & C & S). destruct v as [[x y] z].
  destruct (phi_spec x y) as (ph & E' & B' & C' & S').
  exists th, ph. cbn [fv vx vy]. split; [exact E|]. do 3 (split; [auto|]). unfold z3 in C. cbn [fst snd] in *. unfold direction. cbn [scale3].
  f_equal; [f_equal|].
  - rewrite <- Rmult_assoc, S. exact C'.
  - rewrite <- Rmult_assoc, S. exact S'.
  - rewrite Ropp_mult_distr_r_reverse. set (n := norm3 _) in *. lra.
Qed.

(* C31 *)
Lemma cauchy p q : Rabs (dot3 p q) <= norm3 p * norm3 q.
Proof.
  rewrite <- sqrt_sq_abs. unfold norm3. rewrite <- sqrt_mult_alt by apply dot3_nonneg. apply sqrt_le_1.
  - pose proof (Rle_0_sqr (dot3 p q)). unfold Rsqr in *. lra.
  - apply Rmult_le_pos; apply dot3_nonneg.
  - pose proof (dot3_nonneg (cross3 p q)) as H.
    assert (E : dot3 p p * dot3 q q - dot3 p q * dot3 p q = dot3 (cross3 p q) (cross3 p q)).
    { destruct p as [[a b] c], q as [[d e] f]. simpl. ring. } lra.
Qed.
Lemma norm3_scale k a : 0 <= k -> norm3 (scale3 k a) = k * norm3 a.
Proof.
  intro H. unfold norm3. transitivity (sqrt (k * k) * sqrt (dot3 a a)); [|rewrite sqrt_square by lra; auto]. rewrite <- sqrt_mult_alt by nra. f_equal.
  destruct a as [[x y] z]. simpl. ring.
Qed.
Lemma total_angle p q : p <> (0, 0, 0) -> q <> (0, 0, 0) -> exists a,
  theta_msc1 (fv p) (fv q) = Fin a /\ 0 <= a <= PI /\ norm3 p * norm3 q * cos a = dot3 p q.
Proof.
  intros Hp Hq. apply norm3_pos in Hp, Hq. unfold theta_msc1. rewrite vdot_fv, !vnorm_fv. cbn [xmul]. rewrite xdiv_fin by nra.
  pose proof (cauchy p q) as C. assert (C' : - (norm3 p * norm3 q) <= dot3 p q <= norm3 p * norm3 q) by (revert C; unfold Rabs; destruct (Rcase_abs (dot3 p q)); lra). clear C. rename C' into C. set (n := norm3 p * norm3 q) in *. assert (N : 0 < n) by (apply Rmult_lt_0_compat; auto).
  assert (K : -1 <= dot3 p q / n <= 1).
  { split; apply Rmult_le_reg_r with n; auto; replace (dot3 p q / n * n) with (dot3 p q) by (field; lra); lra. }
  cbn [xacos]. destruct (Rleb_spec (-1) (dot3 p q / n)); [|lra]. destruct (Rleb_spec (dot3 p q / n) 1); [|lra]. cbn [andb].
  exists (acos (dot3 p q / n)). split; [auto|]. split; [apply acos_bound|]. rewrite cos_acos by auto. field. lra.
Qed.
Lemma angle_unique a b : 0 <= a <= PI -> 0 <= b <= PI -> cos a = cos b -> a = b.
Proof. intros. rewrite <- (acos_cos a), <- (acos_cos b) by lra. f_equal. auto. Qed.
Lemma dot3_sym a b : dot3 a b = dot3 b a. Proof. destruct a as [[x y] z], b as [[u v] w]. simpl. ring. Qed.
Lemma total_sym p q : p <> (0, 0, 0) -> q <> (0, 0, 0) -> theta_msc1 (fv q) (fv p) = theta_msc1 (fv p) (fv q).
Proof.
  intros Hp Hq. destruct (total_angle p q Hp Hq) as (a & E & B & C). destruct (total_angle q p Hq Hp) as (b & E' & B' & C').
  rewrite E, E'. f_equal. apply angle_unique; auto. apply norm3_pos in Hp, Hq. apply Rmult_eq_reg_l with (norm3 p * norm3 q); [|nra].
  rewrite C, (dot3_sym p q), <- C'. ring.
Qed.
Lemma scale3_nonzero k p : 0 < k -> p <> (0, 0, 0) -> scale3 k p <> (0, 0, 0).
Proof.
  intros H N E. apply N. destruct p as [[x y] z]. simpl in E. injection E as A B C.
  apply Rmult_integral in A. apply Rmult_integral in B. apply Rmult_integral in C.
  destruct A as [|A]; [lra|]. destruct B as [|B]; [lra|]. destruct C as [|C]; [lra|]. congruence.
Qed.
Lemma total_scale p q k l : p <> (0, 0, 0) -> q <> (0, 0, 0) -> 0 < k -> 0 < l ->
  theta_msc1 (fv (scale3 k p)) (fv (scale3 l q)) = theta_msc1 (fv p) (fv q).
Proof.
  intros Hp Hq Hk Hl. destruct (total_angle p q Hp Hq) as (a & E & B & C).
  destruct (total_angle (scale3 k p) (scale3 l q)) as (b & E' & B' & C'); try (apply scale3_nonzero; auto).
  rewrite E, E'. f_equal. apply angle_unique; auto. apply norm3_pos in Hp, Hq. rewrite !norm3_scale in C' by lra.
  replace (dot3 (scale3 k p) (scale3 l q)) with (k * l * dot3 p q) in C' by (destruct p as [[x y] z], q as [[u v] w]; simpl; ring).
  rewrite <- C in C'. assert (0 < k * l) by nra. assert (0 < norm3 p * norm3 q) by nra.
  apply Rmult_eq_reg_l with (k * l * (norm3 p * norm3 q)); [|nra]. lra.
Qed.

(* C32 *)
Lemma xmin_fin a b : xmin (Fin a) (Fin b) = Fin (Rmin a b).
Proof. unfold xmin. cbn [xle]. destruct (Rleb_spec a b); f_equal; [rewrite Rmin_left|rewrite Rmin_right]; lra. Qed.

Definition dphi0 a b := Rmin (Rmin (2 * PI - a + b) (2 * PI - b + a)) (Rabs (a - b)).
Lemma dphi0_sym a b : dphi0 a b = dphi0 b a.
Proof. unfold dphi0. rewrite (Rmin_comm (2 * PI - a + b)), (Rabs_minus_sym a b). auto. Qed.
Lemma dphi0_spec a b : 0 <= a < 2 * PI -> 0 <= b < 2 * PI ->
  0 <= dphi0 a b <= PI /\ exists t k, (t = 1 \/ t = -1) /\ (k = 0 \/ k = 1 \/ k = -1) /\ a + t * dphi0 a b = b + k * (2 * PI).
Proof.
  intros Ha Hb. unfold dphi0. pose proof PI_pos.
  destruct (Rle_dec a b) as [L|L].
  - rewrite (Rabs_left1 (a - b)) by lra.
    destruct (Rle_dec (- (a - b)) (2 * PI - b + a)) as [M|M].
    + assert (E : Rmin (Rmin (2 * PI - a + b) (2 * PI - b + a)) (- (a - b)) = b - a) by (unfold Rmin; repeat destruct (Rle_dec _ _); lra).
      rewrite E. split; [lra|]. exists 1, 0. repeat split; try lra.
    + assert (E : Rmin (Rmin (2 * PI - a + b) (2 * PI - b + a)) (- (a - b)) = 2 * PI - b + a) by (unfold Rmin; repeat destruct (Rle_dec _ _); lra).
      rewrite E. split; [lra|]. exists (-1), (-1). repeat split; try lra.
  - rewrite (Rabs_pos_eq (a - b)) by lra.
    destruct (Rle_dec (a - b) (2 * PI - a + b)) as [M|M].
    + assert (E : Rmin (Rmin (2 * PI - a + b) (2 * PI - b + a)) (a - b) = a - b) by (unfold Rmin; repeat destruct (Rle_dec _ _); lra).
      rewrite E. split; [lra|]. exists (-1), 0. repeat split; try lra.
    + assert (E : Rmin (Rmin (2 * PI - a + b) (2 * PI - b + a)) (a - b) = 2 * PI - a + b) by (unfold Rmin; repeat destruct (Rle_dec _ _); lra).
      rewrite E. split; [lra|]. exists 1, 1. repeat split; try lra.
Qed.
Lemma cos_k x k : k = 0 \/ k = 1 \/ k = -1 -> cos (x + k * (2 * PI)) = cos x /\ sin (x + k * (2 * PI)) = sin x.
Proof.
  pose proof (cos_shift_Z x) as C. pose proof (sin_shift_Z x) as S. intros [-> |[-> | ->]].
  - rewrite Rmult_0_l, Rplus_0_r. auto.
  - specialize (C (-1)%Z). specialize (S (-1)%Z). replace (x + 1 * (2 * PI)) with (x - -1 * (2 * PI)) by ring. auto.
  - specialize (C 1%Z). specialize (S 1%Z). replace (x + -1 * (2 * PI)) with (x - 1 * (2 * PI)) by ring. auto.
Qed.
Lemma sqrt_sum_le a b c d : (sqrt (a * a + b * b) <= sqrt (c * c + d * d)) <-> (a * a + b * b <= c * c + d * d).
Proof. split; intro H. - apply sqrt_le_0 in H; nra. - apply sqrt_le_1; nra. Qed.

Lemma abs_sq x : Rabs x * Rabs x = x * x.
Proof. rewrite <- Rabs_mult. apply Rabs_pos_eq. apply Rle_0_sqr. Qed.
Lemma sum_sq x y : 0 <= x * x + y * y.
Proof. pose proof (Rle_0_sqr x). pose proof (Rle_0_sqr y). unfold Rsqr in *. lra. Qed.

Lemma dtheta_dphi_fin ti pi to po :
  let a := dphi0 pi po in
  dtheta_dphi1 (Fin ti) (Fin pi) (Fin to) (Fin po)
  = if Rle_dec ((ti - to) * (ti - to) + a * a) ((ti + to) * (ti + to) + (PI - a) * (PI - a))
    then (Fin (Rabs (ti - to)), Fin a) else (Fin (ti + to), Fin (PI - a)).
Proof.
  intro a. unfold dtheta_dphi1. cbv zeta. unfold xsub. cbn [xopp xadd xabs]. rewrite !xmin_fin.
  fold (Rminus pi po). fold (Rminus ti to). replace (2 * PI + - pi + po) with (2 * PI - pi + po) by ring.
  replace (2 * PI + - po + pi) with (2 * PI - po + pi) by ring. fold (dphi0 pi po). fold a. unfold xsquare. cbn [xopp xadd xmul].
  assert (S : Rabs (ti - to) * Rabs (ti - to) = (ti - to) * (ti - to)) by (apply abs_sq).
  rewrite S. fold (Rminus PI a). rewrite !xsqrt_fin by apply sum_sq. cbn [argmin_is_first xle].
  destruct (Rleb_spec (sqrt ((ti - to) * (ti - to) + a * a)) (sqrt ((ti + to) * (ti + to) + (PI - a) * (PI - a)))) as [L|L];
    rewrite sqrt_sum_le in L; destruct (Rle_dec _ _) as [L'|L']; tauto.
Qed.

Lemma dtheta_dphi_spec ti pi to po : 0 <= ti -> 0 <= to -> 0 <= pi < 2 * PI -> 0 <= po < 2 * PI ->
  exists a dt dp, dtheta_dphi1 (Fin ti) (Fin pi) (Fin to) (Fin po) = (Fin dt, Fin dp)
    /\ dtheta_dphi1 (Fin to) (Fin po) (Fin ti) (Fin pi) = (Fin dt, Fin dp)
    /\ 0 <= a <= PI /\ cos a = cos (pi - po)
    /\ 0 <= dt /\ 0 <= dp <= PI
    /\ ((dt, dp) = (Rabs (ti - to), a) \/ (dt, dp) = (ti + to, PI - a))
    /\ dt * dt + dp * dp <= (ti - to) * (ti - to) + a * a
    /\ dt * dt + dp * dp <= (ti + to) * (ti + to) + (PI - a) * (PI - a)
    /\ exists s t, (s = 1 \/ s = -1) /\ (t = 1 \/ t = -1) /\ direction (ti + s * dt) (pi + t * dp) = direction to po.
Proof.
  intros Hi Ho Pi Po. destruct (dphi0_spec pi po Pi Po) as [B (t & k & Ht & Hk & E)].
  assert (S : Rabs (ti - to) * Rabs (ti - to) = (ti - to) * (ti - to)) by (apply abs_sq).
  exists (dphi0 pi po). rewrite !dtheta_dphi_fin, (dphi0_sym po pi), (Rabs_minus_sym to ti), (Rplus_comm to ti).
  replace ((to - ti) * (to - ti)) with ((ti - to) * (ti - to)) by ring.
  set (a := dphi0 pi po) in *.
  assert (C : cos a = cos (pi - po)).
  { replace (pi - po) with (- (t * a) + k * (2 * PI)) by lra. destruct (cos_k (- (t * a)) k Hk) as [-> _]. rewrite cos_neg.
    destruct Ht as [-> | ->]; [f_equal; ring|]. replace (-1 * a) with (- a) by ring. rewrite cos_neg. auto. }
  destruct (Rle_dec _ _) as [L|L].
  - exists (Rabs (ti - to)), a. do 2 (split; [auto|]). do 2 (split; [auto|]). split; [apply Rabs_pos|]. split; [auto|]. split; [auto|].
    rewrite S. split; [lra|]. split; [auto|].
    exists (if Rle_dec ti to then 1 else -1), t. split; [destruct (Rle_dec ti to); auto|]. split; [auto|].
    replace (ti + _) with to. 2:{ unfold Rabs. destruct (Rcase_abs (ti - to)), (Rle_dec ti to); lra. }
    rewrite E. unfold direction. destruct (cos_k po k Hk) as [-> ->]. auto.
  - exists (ti + to), (PI - a). do 2 (split; [auto|]). do 2 (split; [auto|]). split; [lra|]. split; [lra|]. split; [auto|].
    split; [lra|]. split; [lra|].
    exists (-1), (- t). split; [auto|]. split; [destruct Ht; subst; lra|].
    replace (ti + -1 * (ti + to)) with (- to) by ring. replace (pi + - t * (PI - a)) with (po + k * (2 * PI) - t * PI) by (rewrite <- E; ring).
    assert (Ct : cos (po + k * (2 * PI) - t * PI) = - cos po /\ sin (po + k * (2 * PI) - t * PI) = - sin po).
    { destruct (cos_k po k Hk) as [C0 S0]. destruct Ht as [-> | ->].
      - rewrite Rmult_1_l. rewrite cos_minus, sin_minus, cos_PI, sin_PI, C0, S0. split; ring.
      - replace (po + k * (2 * PI) - -1 * PI) with (po + k * (2 * PI) + PI) by ring. rewrite neg_cos, neg_sin, C0, S0. auto. }
    unfold direction. destruct Ct as [-> ->]. rewrite sin_neg, cos_neg. f_equal. f_equal; ring.
Qed.

(* the gap between the two closest points, and the projected angles *)
Lemma dxy_spec v1 p1 v2 p2 : not_parallel v1 v2 ->
  exists c s t, coefs1 (ftrack v1 p1, ftrack v2 p2) = Ok c
    /\ vscale (vz c) (vcross (fv v1) (fv v2)) = fv (sub3 (on_line p2 v2 t) (on_line p1 v1 s))
    /\ forall s' t', distance (on_line p1 v1 s) (on_line p2 v2 t) <= distance (on_line p1 v1 s') (on_line p2 v2 t').
Proof.
  intro N. pose proof (cross_nonzero _ _ N) as N'. destruct (coefs_fin v1 p1 v2 p2 N') as (c0 & c1 & c2 & E & L).
  exists (fv (c0, c1, c2)), c0, c1. split; [auto|]. split.
  - cbn [fv vz]. rewrite vcross_fv, vscale_fv. f_equal. rewrite <- L.
    generalize (on_line p1 v1 c0) (scale3 c2 (cross3 v1 v2)). intros [[x y] z] [[a b] c]. unfold add3, sub3. f_equal; [f_equal|]; ring.
  - intros s' t'. unfold distance, norm3. apply sqrt_le_1; try apply dot3_nonneg.
    set (q := on_line p1 v1 c0) in *. set (n := cross3 v1 v2) in *. pose proof (ortho v1 v2) as [O1 O2]. fold n in O1, O2.
    (* the difference of any two points is the gap plus a combination of the directions *)
    assert (D1 : sub3 q (on_line p2 v2 c1) = scale3 (- c2) n) by (rewrite <- L; generalize q (n); intros [[x y] z] [[a b] c]; unfold add3, sub3, scale3; f_equal; [f_equal|]; ring).
    assert (D2 : sub3 (on_line p1 v1 s') (on_line p2 v2 t') = add3 (scale3 (- c2) n) (sub3 (scale3 (s' - c0) v1) (scale3 (t' - c1) v2))).
    { rewrite <- D1. unfold q, on_line. destruct p1 as [[x1 y1] z1], p2 as [[x2 y2] z2], v1 as [[a1 b1] d1], v2 as [[a2 b2] d2]. unfold add3, sub3, scale3. f_equal; [f_equal|]; ring. }
    rewrite D1, D2. set (w := sub3 (scale3 (s' - c0) v1) (scale3 (t' - c1) v2)).
    assert (O : dot3 n w = 0).
    { transitivity ((s' - c0) * dot3 n v1 - (t' - c1) * dot3 n v2); [|rewrite O1, O2; ring].
      unfold w. clearbody n. destruct n as [[n1 n2] n3], v1 as [[a1 b1] d1], v2 as [[a2 b2] d2]. unfold dot3, sub3, scale3. ring. }
    assert (X : dot3 (add3 (scale3 (- c2) n) w) (add3 (scale3 (- c2) n) w) = dot3 (scale3 (- c2) n) (scale3 (- c2) n) + dot3 w w - 2 * c2 * dot3 n w).
    { clearbody n w. destruct n as [[n1 n2] n3], w as [[w1 w2] w3]. unfold dot3, add3, scale3. ring. }
    rewrite X, O. pose proof (dot3_nonneg w). lra.
Qed.

Lemma projected v : z3 v < 0 ->
  xproj_x (theta1 (fv v)) (phi1 (vx (fv v)) (vy (fv v))) = Fin (atan (fst (fst v) / - z3 v))
  /\ xproj_y (theta1 (fv v)) (phi1 (vx (fv v)) (vy (fv v))) = Fin (atan (snd (fst v) / - z3 v)).
Proof.
  intro L. destruct (theta_phi_direction v L) as (th & ph & E1 & E2 & B1 & B2 & D). rewrite E1, E2.
  destruct v as [[x y] z]. unfold z3 in *. cbn [fst snd] in *. unfold direction, scale3 in D. injection D as Dx Dy Dz.
  assert (C : 0 < cos th) by (apply cos_gt_0; pose proof PI_pos; lra).
  assert (N : 0 < norm3 (x, y, z)) by (apply norm3_pos; intro E; injection E; lra).
  unfold xproj_x, xproj_y. rewrite xtan_fin by lra. unfold xcos, xsin. cbn [xfun xmul xatan]. unfold tan.
  clear E1 E2. set (n := norm3 (x, y, z)) in *. clearbody n. subst x y. rewrite <- Dz. split; f_equal; f_equal; field; lra.
Qed.
