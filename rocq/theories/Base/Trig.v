(* Trigonometric facts used in several areas. *)
From Coq Require Import ZArith Psatz.
From Verif Require Export Base.XR.
Open Scope R_scope.

Lemma PI_pos : 0 < PI. Proof. apply PI_RGT_0. Qed.

Lemma cos_shift_Z x k : cos (x - IZR k * (2 * PI)) = cos x.
Proof.
  destruct (Z_le_gt_dec 0 k) as [Hk|Hk].
  - replace (cos x) with (cos ((x - IZR k * (2 * PI)) + 2 * INR (Z.to_nat k) * PI)).
    + symmetry. apply cos_period.
    + f_equal. rewrite INR_IZR_INZ, Z2Nat.id by lia. ring.
  - rewrite <- (cos_period x (Z.to_nat (- k))). f_equal.
    rewrite INR_IZR_INZ, Z2Nat.id by lia. rewrite opp_IZR. ring.
Qed.
Lemma sin_shift_Z x k : sin (x - IZR k * (2 * PI)) = sin x.
Proof.
  destruct (Z_le_gt_dec 0 k) as [Hk|Hk].
  - replace (sin x) with (sin ((x - IZR k * (2 * PI)) + 2 * INR (Z.to_nat k) * PI)).
    + symmetry. apply sin_period.
    + f_equal. rewrite INR_IZR_INZ, Z2Nat.id by lia. ring.
  - rewrite <- (sin_period x (Z.to_nat (- k))). f_equal.
    rewrite INR_IZR_INZ, Z2Nat.id by lia. rewrite opp_IZR. ring.
Qed.
Lemma cos_Rmod x : cos (Rmod x (2 * PI)) = cos x.
Proof. destruct (Rmod_eq x (2 * PI)) as [k ->]. apply cos_shift_Z. Qed.
Lemma sin_Rmod x : sin (Rmod x (2 * PI)) = sin x.
Proof. destruct (Rmod_eq x (2 * PI)) as [k ->]. apply sin_shift_Z. Qed.

(* cosine positive exactly on [0,pi/2) u (3pi/2,2pi) within one turn *)
Lemma cos_pos_iff t : 0 <= t < 2 * PI -> (0 < cos t <-> t < PI / 2 \/ 3 * (PI / 2) < t).
Proof.
  pose proof PI_pos as HP. intros Ht. split.
  - intro Hc. destruct (Rlt_dec t (PI / 2)) as [|H1]; auto. destruct (Rlt_dec (3 * (PI / 2)) t) as [|H2]; auto.
    exfalso. assert (cos t <= 0); [|lra]. apply cos_le_0; lra.
  - intros [H1|H1].
    + apply cos_gt_0; lra.
    + replace t with (t - 2 * PI + 2 * INR 1 * PI) by (simpl; ring). rewrite cos_period. apply cos_gt_0; lra.
Qed.

Lemma cos_pos_acute t : 0 <= t <= PI -> (0 < cos t <-> t < PI / 2).
Proof.
  pose proof PI_pos as HP. intro Ht. rewrite cos_pos_iff by lra. lra.
Qed.

Lemma sqrt_sq_abs x : sqrt (x * x) = Rabs x.
Proof. apply sqrt_Rsqr_abs. Qed.

(* sqrt(1 + (y/x)^2) = sqrt(x^2+y^2)/|x| *)
Lemma sqrt_1_ratio x y : x <> 0 -> sqrt (1 + (y / x)²) = sqrt (x * x + y * y) / Rabs x.
Proof.
  intro Hx. rewrite <- (sqrt_sq_abs x).
  rewrite <- sqrt_div_alt by (apply Rsqr_pos_lt in Hx; unfold Rsqr in Hx; lra).
  f_equal. unfold Rsqr. field; auto.
Qed.
Lemma norm_pos x y : x <> 0 \/ y <> 0 -> 0 < sqrt (x * x + y * y).
Proof. intro H. apply sqrt_lt_R0. destruct H as [H|H]; apply Rsqr_pos_lt in H; unfold Rsqr in H; nra. Qed.

Lemma cos_atan_ratio x y : x <> 0 -> cos (atan (y / x)) = Rabs x / sqrt (x * x + y * y).
Proof.
  intro Hx. rewrite cos_atan, sqrt_1_ratio by auto.
  pose proof (norm_pos x y (or_introl Hx)). pose proof (Rabs_pos_lt x Hx). field; split; lra.
Qed.
Lemma sin_atan_ratio x y : x <> 0 -> sin (atan (y / x)) = (y * Rabs x / x) / sqrt (x * x + y * y).
Proof.
  intro Hx. rewrite sin_atan, sqrt_1_ratio by auto.
  pose proof (norm_pos x y (or_introl Hx)). pose proof (Rabs_pos_lt x Hx). field; repeat split; try lra; auto.
Qed.

Lemma tan_period_pi x : cos x <> 0 -> tan (x - PI) = tan x.
Proof.
  intro Hc. unfold tan.
  replace (sin (x - PI)) with (- sin x) by (rewrite sin_minus, sin_PI, cos_PI; ring).
  replace (cos (x - PI)) with (- cos x) by (rewrite cos_minus, sin_PI, cos_PI; ring).
  field; auto.
Qed.
Lemma tan_period_2pi x : tan (x - 2 * PI) = tan x.
Proof.
  unfold tan. replace (x - 2 * PI) with (x - IZR 1 * (2 * PI)) by (simpl; ring).
  rewrite cos_shift_Z, sin_shift_Z; auto.
Qed.

Lemma tan_pos t : 0 < t < PI / 2 -> 0 < tan t.
Proof. intros [H1 H2]. apply tan_gt_0; auto. Qed.
Lemma tan_sign_pos t : - (PI / 2) < t < PI / 2 -> (0 < tan t <-> 0 < t).
Proof.
  intro Ht. split; intro H.
  - destruct (Rlt_dec 0 t); auto. exfalso. destruct (Req_dec t 0) as [->|].
    + rewrite tan_0 in H; lra.
    + assert (tan t < 0) by (apply tan_lt_0; lra). lra.
  - apply tan_gt_0; lra.
Qed.
Lemma tan_sign_neg t : - (PI / 2) < t < PI / 2 -> (tan t < 0 <-> t < 0).
Proof.
  intro Ht. split; intro H.
  - destruct (Rlt_dec t 0); auto. exfalso. destruct (Req_dec t 0) as [->|].
    + rewrite tan_0 in H; lra.
    + assert (0 < tan t) by (apply tan_gt_0; lra). lra.
  - apply tan_lt_0; lra.
Qed.
Lemma tan_zero_iff t : - (PI / 2) < t < PI / 2 -> (tan t = 0 <-> t = 0).
Proof.
  intro Ht. split; intro H; [|subst; apply tan_0].
  destruct (tan_sign_pos t Ht), (tan_sign_neg t Ht). destruct (Rtotal_order t 0) as [|[|]]; auto; exfalso.
  - assert (tan t < 0) by auto. lra.
  - assert (0 < tan t) by auto. lra.
Qed.
Lemma cos_open t : - (PI / 2) < t < PI / 2 -> 0 < cos t.
Proof. intros [H1 H2]; apply cos_gt_0; auto. Qed.
Lemma atan_sign_pos x : 0 < x -> 0 < atan x.
Proof. intro H. rewrite <- atan_0. apply atan_increasing; auto. Qed.
Lemma atan_sign_neg x : x < 0 -> atan x < 0.
Proof. intro H. rewrite <- atan_0. apply atan_increasing; auto. Qed.
Lemma atan_nonneg x : 0 <= x -> 0 <= atan x.
Proof. intros [H|<-]; [left; apply atan_sign_pos; auto | rewrite atan_0; lra]. Qed.
Lemma sin2_cos2' x : sin x * sin x + cos x * cos x = 1.
Proof. exact (sin2_cos2 x). Qed.
Lemma tan_atan_ge_sqrt x : 0 <= x -> 0 <= atan x < PI / 2.
Proof. intro H. split; [apply atan_nonneg; auto | destruct (atan_bound x); lra]. Qed.
