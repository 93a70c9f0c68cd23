(* The filter of scatter batches, per muon: keep1 means usable. *)
From Coq Require Import Psatz.
From Verif Require Import Base.Trig Model.Scatter Spec.ScatterSpec Spec.LayerSpec Proofs.ScatterGeo.
Open Scope R_scope.
Open Scope list_scope.

Lemma vdot_fin_inv v d : vdot v v = Fin d -> exists p, v = fv p.
Proof. destruct v as [x y z]. destruct x, y, z; cbn; intro E; try discriminate. eexists (_, _, _). reflexivity. Qed.
Lemma vnorm_fin_inv v n : vnorm v = Fin n -> exists p, v = fv p.
Proof.
  unfold vnorm. destruct (vdot v v) as [d| | |] eqn:E; cbn; try discriminate. intros _. eapply vdot_fin_inv; eauto.
Qed.
Lemma xacos_inv a r : xacos a = Fin r -> exists x, a = Fin x /\ -1 <= x <= 1 /\ r = acos x.
Proof.
  destruct a as [x| | |]; cbn; try discriminate. destruct (Rleb_spec (-1) x), (Rleb_spec x 1); cbn; try discriminate.
  intro E. injection E as <-. eauto.
Qed.

Lemma small_angle : 0 < 1 / 100000 < PI / 2.
Proof. pose proof PI2_1. unfold Rdiv in *. lra. Qed.

Lemma theta_steep v : xlt (xsub (theta1 v) (Fin (PI / 2))) (Fin (- (1 / 100000))) = true -> exists p, v = fv p /\ steep p.
Proof.
  pose proof small_angle as [K1 K2]. intro H.
  assert (exists a, xdiv (xopp (vz v)) (vnorm v) = Fin a /\ -1 <= a <= 1 /\ acos a < PI / 2 - 1 / 100000) as (a & Ea & Ba & La).
  { unfold theta1 in H. cbv zeta in H. destruct (xeq (xdiv (xopp (vz v)) (vnorm v)) (Fin 1)) eqn:Eq; cbn [negb] in H.
    - destruct (xdiv (xopp (vz v)) (vnorm v)) as [a| | |]; cbn in Eq; try discriminate. apply Reqb_true in Eq as ->.
      exists 1. split; [auto|]. split; [lra|]. rewrite acos_1. lra.
    - destruct (xacos (xdiv (xopp (vz v)) (vnorm v))) as [r| | |] eqn:Er; try discriminate.
      + apply xacos_inv in Er as (a & Ea & Ba & ->). exists a. split; [auto|]. split; [auto|]. cbn in H. apply Rltb_true in H. lra.
      + exfalso. destruct (xdiv (xopp (vz v)) (vnorm v)); cbn in Er; try discriminate. destruct (_ && _); discriminate. }
  assert (P : sin (1 / 100000) < a).
  { rewrite <- cos_shift. rewrite <- (cos_acos a) by auto. apply cos_decreasing_1; try lra; apply acos_bound || (pose proof (acos_bound a); lra). }
  assert (0 < sin (1 / 100000)) by (apply sin_gt_0; lra).
  destruct (vnorm v) as [n| | |] eqn:En.
  - destruct (vnorm_fin_inv v n En) as [[[x y] z] ->]. exists (x, y, z). split; [auto|]. rewrite vnorm_fv in En. injection En as <-.
    unfold steep, z3. cbn [snd]. cbn [fv vz xopp] in Ea. set (m := norm3 (x, y, z)) in *.
    assert (0 <= m) by apply sqrt_pos. cbn in Ea. destruct (Req_EM_T m 0) as [E0|E0].
    { unfold inf_of_sign in Ea. repeat destruct (Rlt_dec _ _); discriminate. }
    injection Ea as <-. apply Rmult_lt_reg_r with (/ m). { apply Rinv_0_lt_compat. lra. }
    replace (sin (1 / 100000) * m * / m) with (sin (1 / 100000)) by (field; lra). exact P.
  - destruct (vz v); cbn in Ea; try discriminate. injection Ea as <-. lra.
  - unfold vnorm in En. destruct (vdot v v); cbn in En; try discriminate. destruct (Rlt_dec r 0); discriminate.
  - destruct (vz v); cbn in Ea; discriminate.
Qed.
Lemma steep_down v : steep v -> z3 v < 0.
Proof.
  unfold steep. intro H. pose proof small_angle. assert (0 < sin (1 / 100000)) by (apply sin_gt_0; lra).
  assert (0 <= norm3 v) by apply sqrt_pos. nra.
Qed.
Lemma steep_nonzero v : steep v -> v <> (0, 0, 0).
Proof. intros H ->. apply steep_down in H. unfold z3 in H. simpl in H. lra. Qed.
Lemma steep_theta p : steep p -> xlt (xsub (theta1 (fv p)) (Fin (PI / 2))) (Fin (- (1 / 100000))) = true.
Proof.
  intro H. destruct (theta_spec p (steep_down p H)) as (th & -> & B & C & _). unfold xsub. cbn [xopp xadd xlt]. apply Rltb_true.
  pose proof small_angle as [K1 K2].
  assert (N : 0 < norm3 p) by (apply norm3_pos, steep_nonzero; auto). unfold steep in H. rewrite <- C in H.
  assert (sin (1 / 100000) < cos th) by nra. rewrite <- cos_shift in H0.
  assert (th < PI / 2 - 1 / 100000). { apply cos_decreasing_0; lra. } lra.
Qed.

Lemma between_fin a b x : xlt (Fin a) x = true -> xlt x (Fin b) = true -> exists r, x = Fin r /\ a < r < b.
Proof. destruct x as [r| | |]; cbn; try discriminate. intros H1 H2. apply Rltb_true in H1, H2. eauto. Qed.
Lemma xadd_fin_inv a b r : xadd a b = Fin r -> exists x y, a = Fin x /\ b = Fin y.
Proof. destruct a, b; cbn; try discriminate. eauto. Qed.
Lemma inf_sign_not_fin x r : inf_of_sign x <> Fin r.
Proof. unfold inf_of_sign. repeat destruct (Rlt_dec _ _); discriminate. Qed.
Lemma xmul_fin_l k v r : xmul k (Fin v) = Fin r -> exists x, k = Fin x.
Proof. destruct k; cbn; intro E; try (exfalso; eapply inf_sign_not_fin; eassumption); try discriminate; eauto. Qed.
Lemma xdiv_fin_l d v r : v <> 0 -> xdiv d (Fin v) = Fin r -> exists x, d = Fin x.
Proof. intros N. destruct d; cbn; try (destruct (Rlt_dec v 0)); intro E; try discriminate; eauto. Qed.
Lemma xopp_fin_inv a r : xopp a = Fin r -> exists x, a = Fin x.
Proof. destruct a; cbn; try discriminate; eauto. Qed.

Lemma near_in_start zr lw v s : z3 v <> 0 -> near1 lw (xyz_in1 zr (Track (fv v) s)) = true -> exists p, s = fv p.
Proof.
  intros N H. unfold near1 in H. apply andb_prop in H as [H H4]. apply andb_prop in H as [H H3]. apply andb_prop in H as [H1 H2].
  destruct (between_fin _ _ _ H1 H3) as (x & Ex & _). destruct (between_fin _ _ _ H2 H4) as (y & Ey & _). clear H1 H2 H3 H4.
  destruct v as [[a b] c], s as [sx sy sz]. unfold z3 in N. cbn [snd] in N. unfold xyz_in1, vadd, vscale, xsub in *. cbn [t_start t_vec fv vx vy vz] in *.
  apply xadd_fin_inv in Ex as (x1 & x2 & -> & Ex). apply xadd_fin_inv in Ey as (y1 & y2 & -> & Ey).
  apply xmul_fin_l in Ex as [k Ek]. apply xdiv_fin_l in Ek as [d Ed]; auto. apply xadd_fin_inv in Ed as (_ & z & _ & Ez).
  apply xopp_fin_inv in Ez as [w ->]. eexists (_, _, _). reflexivity.
Qed.
Lemma near_out_start zr lw v s : z3 v <> 0 -> near1 lw (xyz_out1 zr (Track (fv v) s)) = true -> exists p, s = fv p.
Proof.
  intros N H. unfold near1 in H. apply andb_prop in H as [H H4]. apply andb_prop in H as [H H3]. apply andb_prop in H as [H1 H2].
  destruct (between_fin _ _ _ H1 H3) as (x & Ex & _). destruct (between_fin _ _ _ H2 H4) as (y & Ey & _). clear H1 H2 H3 H4.
  destruct v as [[a b] c], s as [sx sy sz]. unfold z3 in N. cbn [snd] in N. unfold xyz_out1, vsub, vscale, xsub in *. cbn [t_start t_vec fv vx vy vz] in *.
  apply xadd_fin_inv in Ex as (x1 & x2 & -> & Ex). apply xadd_fin_inv in Ey as (y1 & y2 & -> & Ey).
  apply xopp_fin_inv in Ex as [? Ex]. apply xmul_fin_l in Ex as [k Ek]. apply xdiv_fin_l in Ek as [d Ed]; auto. apply xadd_fin_inv in Ed as (z & _ & -> & _).
  eexists (_, _, _). reflexivity.
Qed.
Lemma near1_fv lw p : near1 lw (fv p) = true <-> near lw p.
Proof.
  destruct p as [[x y] z]. unfold near1, near. cbn [fv vx vy xlt fst snd]. rewrite !andb_true_iff, !Rltb_true. tauto.
Qed.
Lemma on_line_z p v s t : z3 v <> 0 -> z3 (on_line p v s) = z3 (on_line p v t) -> s = t.
Proof. destruct p as [[x y] z], v as [[a b] c]. unfold z3. cbn. intros N E. apply Rmult_eq_reg_r with c; auto. lra. Qed.

Lemma msc_parallel v1 v2 a : z3 v1 < 0 -> z3 v2 < 0 -> theta_msc1 (fv v1) (fv v2) = Fin a -> (a <> 0 <-> not_parallel v1 v2).
Proof.
  intros D1 D2 E.
  assert (N1 : v1 <> (0, 0, 0)) by (intros ->; unfold z3 in D1; simpl in D1; lra).
  assert (N2 : v2 <> (0, 0, 0)) by (intros ->; unfold z3 in D2; simpl in D2; lra).
  destruct (total_angle v1 v2 N1 N2) as (a' & E' & B & C). assert (a' = a) as -> by congruence. split.
  - intros Ha s t P.
    assert (Pz : s * z3 v1 = t * z3 v2).
    { destruct v1 as [[x y] z], v2 as [[u v] w]. unfold z3. simpl in *. injection P as _ _ P. exact P. }
    destruct (Req_dec s 0) as [-> |Ns]. { split; [auto|]. rewrite Rmult_0_l in Pz. symmetry in Pz. apply Rmult_integral in Pz. lra. }
    exfalso. apply Ha.
    assert (Hk : 0 < t / s). { replace (t / s) with (z3 v1 / z3 v2) by (apply Rmult_eq_reg_r with (s * z3 v2); [field_simplify; lra|apply Rmult_integral_contrapositive; lra]).
      replace (z3 v1 / z3 v2) with (- z3 v1 / - z3 v2) by (field; lra). apply Rdiv_lt_0_compat; lra. }
    assert (Ev : v1 = scale3 (t / s) v2).
    { destruct v1 as [[x y] z], v2 as [[u v] w]. simpl in *. injection P as P1 P2 P3.
      f_equal; [f_equal|]; apply Rmult_eq_reg_l with s; auto; [rewrite P1|rewrite P2|rewrite P3]; field; auto. }
    pose proof (total_scale v2 v2 (t / s) 1 N2 N2 Hk ltac:(lra)) as T.
    replace (scale3 1 v2) with v2 in T by (destruct v2 as [[u v] w]; simpl; f_equal; [f_equal|]; ring). rewrite <- Ev, E in T.
    destruct (total_angle v2 v2 N2 N2) as (b & Eb & Bb & Cb). assert (b = a) as -> by congruence.
    rewrite norm3_sq in Cb. assert (0 < dot3 v2 v2). { rewrite <- norm3_sq. apply norm3_pos in N2. nra. }
    apply angle_unique; try lra. rewrite cos_0. apply Rmult_eq_reg_l with (dot3 v2 v2); lra.
  - intros P ->. rewrite cos_0, Rmult_1_r in C.
    apply cross_nonzero in P. apply P.
    assert (X : dot3 v1 v1 * dot3 v2 v2 - dot3 v1 v2 * dot3 v1 v2 = dot3 (cross3 v1 v2) (cross3 v1 v2)).
    { clear. destruct v1 as [[a b] c], v2 as [[d e] f]. simpl. ring. }
    rewrite <- X, <- C, <- !norm3_sq. ring.
Qed.

Lemma keep_usable gen lw zr m ts : keep1 gen lw zr m ts = true <-> usable lw zr (used_uncs gen m) ts.
Proof.
  destruct ts as [[v1 s1] [v2 s2]]. unfold keep1. cbn [fst snd t_vec t_start]. cbv zeta. split.
  - intro H. apply andb_prop in H as [H Hu]. apply andb_prop in H as [H Ho]. apply andb_prop in H as [H Hi].
    apply andb_prop in H as [H Hto]. apply andb_prop in H as [H Hti]. apply andb_prop in H as [H Hinf]. apply andb_prop in H as [H0 Hnan].
    destruct (theta_steep _ Hti) as (q1 & -> & S1). destruct (theta_steep _ Hto) as (q2 & -> & S2).
    pose proof (steep_down _ S1) as D1. pose proof (steep_down _ S2) as D2.
    destruct (near_in_start zr lw q1 s1 ltac:(lra) Hi) as (p1 & ->). destruct (near_out_start zr lw q2 s2 ltac:(lra) Ho) as (p2 & ->).
    exists q1, p1, q2, p2. split; [auto|]. split; [auto|]. split; [auto|]. split.
    + destruct (total_angle q1 q2) as (a & Ea & _); try (apply steep_nonzero; auto). rewrite Ea in H0. cbn [xeq] in H0.
      apply (msc_parallel q1 q2 a); auto. apply negb_true_iff, Reqb_false in H0. auto.
    + split; [|split].
      * destruct (entry_exit q1 p1 zr ltac:(lra)) as [(t & Et & Zt) _]. exists t. split; [auto|]. unfold ftrack in Et. rewrite Et in Hi. apply near1_fv; auto.
      * destruct (entry_exit q2 p2 zr ltac:(lra)) as [_ (t & Et & Zt)]. exists t. split; [auto|]. unfold ftrack in Et. rewrite Et in Ho. apply near1_fv; auto.
      * intros u Hin. rewrite forallb_forall in Hu. apply Hu in Hin. apply andb_prop in Hin. auto.
  - intros (q1 & p1 & q2 & p2 & E & S1 & S2 & NP & (t1 & Z1 & N1) & (t2 & Z2 & N2) & Hu). unfold ftrack in E. injection E as -> -> -> ->.
    pose proof (steep_down _ S1) as D1. pose proof (steep_down _ S2) as D2.
    destruct (total_angle q1 q2) as (a & Ea & _); try (apply steep_nonzero; auto). rewrite Ea.
    apply (msc_parallel q1 q2 a) in NP; auto.
    rewrite !steep_theta by auto.
    destruct (entry_exit q1 p1 zr ltac:(lra)) as [(t & Et & Zt) _]. destruct (entry_exit q2 p2 zr ltac:(lra)) as [_ (t' & Et' & Zt')].
    assert (t = t1) as -> by (apply (on_line_z p1 q1); lra). assert (t' = t2) as -> by (apply (on_line_z p2 q2); lra).
    unfold ftrack in Et, Et'. rewrite Et, Et'. apply near1_fv in N1, N2. rewrite N1, N2. cbn [xeq xisnan xisinf negb].
    destruct (Reqb_spec a 0); [contradiction|]. cbn [negb andb]. apply forallb_forall. intros u Hin. apply Hu in Hin as [-> ->]. auto.
Qed.
