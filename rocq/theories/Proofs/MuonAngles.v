(* C03, C04, C06, C07: angles. *)
From Verif Require Import Base.Trig Model.MuonBatch Spec.MuonSpec Spec.AngleSpec Proofs.MuonBatchP Proofs.MuonConserve.
From Coq Require Import Psatz.
Open Scope R_scope.
Open Scope list_scope.

Lemma remove_upwards_effect {H} (b b' : batch H) :
  remove_upwards_muons b = Ok b' ->
  b_muons b' = filter keep_down (b_muons b)
  /\ removed_of b' = removed_of b ++ filter (fun u => negb (keep_down u)) (b_muons b).
Proof.
  intro E. unfold remove_upwards_muons in E. apply filter_effect in E as [[Hc ->]|(L & E1 & E2)].
  - assert (forall l : list muon, (len l <= count_true (map keep_down l))%nat ->
      filter keep_down l = l /\ filter (fun u => negb (keep_down u)) l = []) as K.
    { induction l as [|u l IH]; simpl; auto. pose proof (count_true_le (map keep_down l)) as B.
      rewrite map_length in B. destruct (keep_down u); simpl; intro; [|lia].
      destruct IH as [-> ->]; [lia|auto]. }
    destruct (K _ Hc) as [-> ->]. rewrite app_nil_r. auto.
  - rewrite E1, E2, select_filter. split; auto. f_equal.
    unfold negm. rewrite map_map. apply select_filter.
Qed.

Lemma remove_ok {H} (b : batch H) :
  aligned (len (b_muons b)) (b_hits b) -> exists b', remove_upwards_muons b = Ok b'.
Proof. intro A. apply filter_ok; [apply map_length|exact A]. Qed.

Lemma upd_cases {C} (sel : C -> bool) (mu : C -> muon) (f : nat -> muon -> muon) (g : C -> muon) (cs : list C) :
  (forall i c, nth_error cs i = Some c -> g c = if sel c then f i (mu c) else mu c) ->
  upd (map sel cs) f (map mu cs) = map g cs.
Proof.
  unfold upd. revert f. induction cs as [|c cs IH]; intros f Hf; simpl; auto.
  rewrite (Hf 0%nat c eq_refl). f_equal.
  apply (IH (fun i => f (S i))). intros i c' E. apply (Hf (S i)); auto.
Qed.

Lemma nth_map_some {C} (f : C -> xr) (cs : list C) i c d :
  nth_error cs i = Some c -> nth i (map f cs) d = f c.
Proof. revert i; induction cs as [|x cs IH]; intros [|i]; simpl; intro E; try discriminate; [congruence|auto]. Qed.

(* a call with one value for each selected element *)
Lemma call_vec {C} (sel : C -> bool) (f : C -> xr) cs :
  call_arg (Some (map sel cs)) (SEach (map f cs)) = Vec (map f (filter sel cs)).
Proof. simpl. rewrite select_map, select_filter. reflexivity. Qed.

Definition turned (c : turn_case) : muon :=
  if c_sel c then turn1 (Some (Fin (c_da c))) (Some (Fin (c_db c))) (c_mu c) else c_mu c.

Lemma turn_cases {H} cs removed hits hist :
  scatter_dtheta_dphi (H := H) (Some (c_arg_a cs)) (Some (c_arg_b cs)) (Some (c_mask cs))
    (Batch (map c_mu cs) removed hits hist)
  = remove_upwards_muons (Batch (map turned cs) removed hits hist).
Proof.
  unfold scatter_dtheta_dphi. cbv zeta. cbn [b_muons mask_or_ones].
  pose proof (turn_spec (map c_mu cs) (Some (c_mask cs))) as T.
  specialize (T ltac:(simpl; unfold c_mask; rewrite !map_length, Nat.eqb_refl; auto)).
  specialize (T (Some (SEach (map (fun c => Fin (c_da c)) cs))) (Some (SEach (map (fun c => Fin (c_db c)) cs)))).
  specialize (T ltac:(simpl; rewrite !map_length, Nat.eqb_refl; auto) ltac:(simpl; rewrite !map_length, Nat.eqb_refl; auto)).
  cbn [call_argo mask_or_ones] in T. unfold c_mask in T. rewrite !call_vec in T. cbn [mask_or_ones] in T.
  change (Vec (map (fun c => Fin (c_da c)) (filter c_sel cs))) with (c_arg_a cs) in T.
  change (Vec (map (fun c => Fin (c_db c)) (filter c_sel cs))) with (c_arg_b cs) in T.
  unfold c_mask.
  destruct (dphi_part (map c_sel cs) (Some (c_arg_b cs)) (map c_mu cs)) as [m1|]; [|discriminate].
  cbn [bind] in T |- *. rewrite T. cbn [bind].
  rewrite (upd_cases c_sel c_mu _ turned); [reflexivity|].
  intros i c Hc. unfold turned. destruct (c_sel c); auto.
  cbn [at_io at_i]. rewrite !(nth_map_some _ _ _ _ _ Hc). reflexivity.
Qed.

(* the folding of one muon *)
Lemma turned_angles c : c_sel c = true ->
  exists t p, turned c = Mu (c_x c) (c_y c) (c_z c) (c_p c) (Fin t) (Fin p)
    /\ 0 <= t <= PI /\ 0 <= p < 2 * PI
    /\ dir t p = dir (c_th' c) (c_ph' c) /\ cos t = cos (c_th' c).
Proof.
  intro Hs. unfold turned, c_th', c_ph'. rewrite Hs. unfold turn1, two_pi, c_mu. cbn [mth mph mx my mz mp xadd xmod].
  pose proof PI_pos as HP.
  set (T := c_th c + c_da c). set (P := c_ph c + c_db c).
  pose proof (Rmod_bounds T (2 * PI) ltac:(lra)) as BT.
  pose proof (Rmod_bounds P (2 * PI) ltac:(lra)) as BP.
  cbn [xlt]. destruct (Rltb_spec PI (Rmod T (2 * PI))) as [Hf|Hf].
  - unfold xsub, xopp, xadd, xmod. do 2 eexists. split; [reflexivity|].
    pose proof (Rmod_bounds (Rmod P (2 * PI) + PI) (2 * PI) ltac:(lra)) as BQ.
    split; [lra|]. split; [lra|].
    assert (cos (2 * PI + - Rmod T (2 * PI)) = cos T) as Ec.
    { rewrite <- (cos_Rmod T). rewrite cos_plus, cos_2PI, sin_2PI, cos_neg, sin_neg. ring. }
    assert (sin (2 * PI + - Rmod T (2 * PI)) = - sin T) as Es.
    { rewrite <- (sin_Rmod T). rewrite sin_plus, cos_2PI, sin_2PI, cos_neg, sin_neg. ring. }
    split; [|exact Ec]. unfold dir. rewrite Ec, Es, cos_Rmod, sin_Rmod.
    rewrite neg_cos, neg_sin, cos_Rmod, sin_Rmod. apply f_equal2; [apply f_equal2|]; ring.
  - do 2 eexists. split; [reflexivity|]. split; [lra|]. split; [lra|].
    unfold dir. rewrite !cos_Rmod, !sin_Rmod. auto.
Qed.

Lemma turned_keep c : keep_down (turned c) = c_down c.
Proof.
  unfold c_down. destruct (c_sel c) eqn:Hs.
  - destruct (turned_angles c Hs) as (t & p & -> & Ht & Hp & _ & Ec).
    unfold keep_down; cbn [mth mph xlt xisnan]. rewrite <- Ec. rewrite !andb_true_r.
    pose proof (cos_pos_acute t Ht) as K.
    destruct (Rltb_spec t (PI / 2)), (Rltb_spec 0 (cos t)); auto; tauto.
  - unfold turned. rewrite Hs. unfold keep_down, c_mu; cbn [mth mph xlt xisnan]. rewrite !andb_true_r. auto.
Qed.

Lemma Forall2_map_filter {C} (P : C -> muon -> Prop) (g : C -> muon) (k : C -> bool) cs :
  (forall c, k c = true -> P c (g c)) -> Forall2 P (filter k cs) (map g (filter k cs)).
Proof.
  intro HP. induction cs as [|c cs IH]; simpl; [constructor|].
  destruct (k c) eqn:E; simpl; auto.
Qed.

Lemma filter_map_comm {C} (g : C -> muon) (k : muon -> bool) cs :
  filter k (map g cs) = map g (filter (fun c => k (g c)) cs).
Proof. induction cs as [|c cs IH]; simpl; auto. destruct (k (g c)); simpl; rewrite IH; auto. Qed.

Lemma scatter_dtheta_dphi_correct {H} cs removed (hits : hits_dict H) hist :
  aligned (len cs) hits ->
  exists b', scatter_dtheta_dphi (Some (c_arg_a cs)) (Some (c_arg_b cs)) (Some (c_mask cs))
    (Batch (map c_mu cs) removed hits hist) = Ok b' /\
  Forall2 (fun c u =>
      same_place c u /\
      exists t p, mth u = Fin t /\ mph u = Fin p
        /\ dir t p = dir (c_th' c) (c_ph' c)
        /\ (c_sel c = true -> 0 <= t < PI / 2 /\ 0 <= p < 2 * PI)
        /\ (c_sel c = false -> t = c_th c /\ p = c_ph c))
    (filter c_down cs) (b_muons b')
  /\ (len (removed_of b') = len (match removed with None => [] | Some r => r end)
                            + len (filter (fun c => negb (c_down c)) cs))%nat.
Proof.
  intro A. rewrite turn_cases.
  destruct (remove_ok (Batch (map turned cs) removed hits hist)) as [b' E];
    [cbn [b_muons b_hits]; rewrite map_length; exact A|].
  exists b'. split; [exact E|].
  apply remove_upwards_effect in E as [E1 E2].
  cbn [b_muons] in E1, E2. split.
  - rewrite E1, filter_map_comm.
    assert (filter (fun c => keep_down (turned c)) cs = filter c_down cs) as ->
      by (apply filter_ext; intro; apply turned_keep).
    apply Forall2_map_filter. intros c Hd. unfold c_down in Hd.
    destruct (c_sel c) eqn:Hs.
    + destruct (turned_angles c Hs) as (t & p & -> & Ht & Hp & Hdir & Ec).
      split; [repeat split|]. exists t, p. cbn.
      split; [reflexivity|]. split; [reflexivity|]. split; [exact Hdir|]. split; [intros _|intro; discriminate].
      split; [split; [lra|]|lra].
      apply (cos_pos_acute t Ht). rewrite Ec. apply Rltb_true; auto.
    + unfold turned. rewrite Hs. split; [repeat split|]. exists (c_th c), (c_ph c). cbn.
      unfold c_th', c_ph'. rewrite Hs.
      split; [reflexivity|]. split; [reflexivity|]. split; [reflexivity|]. split; [intro; discriminate|auto].
  - rewrite E2, app_length, filter_map_comm, map_length. f_equal.
    f_equal. apply filter_ext. intro c. rewrite turned_keep; auto.
Qed.

(* ---------- conversions between (theta, phi) and projected angles (C06) ---------- *)
Lemma xtan_open t : open_half t -> xtan (Fin t) = Fin (tan t).
Proof. intro Ht. apply xtan_fin. pose proof (cos_open t Ht). lra. Qed.

Lemma theta_x_fin th ph : 0 <= th < PI / 2 -> theta_x_from_theta_phi1 (Fin th) (Fin ph) = Fin (proj_x th ph).
Proof.
  intros Ht. pose proof PI_pos. unfold theta_x_from_theta_phi1.
  rewrite xtan_open by (unfold open_half; lra). cbn. destruct (Rleb_spec (PI / 2) th); [lra|reflexivity].
Qed.
Lemma theta_y_fin th ph : 0 <= th < PI / 2 -> theta_y_from_theta_phi1 (Fin th) (Fin ph) = Fin (proj_y th ph).
Proof.
  intros Ht. pose proof PI_pos. unfold theta_y_from_theta_phi1.
  rewrite xtan_open by (unfold open_half; lra). cbn. destruct (Rleb_spec (PI / 2) th); [lra|reflexivity].
Qed.

Lemma Rabs_half t : Rleb (PI / 2) (Rabs t) = false <-> open_half t.
Proof. rewrite Rleb_false. unfold open_half. split; intro Ht; [apply Rabs_def2 in Ht; lra | apply Rabs_def1; lra]. Qed.

Lemma theta_from_fin tx ty : open_half tx -> open_half ty ->
  theta_from_theta_xy1 (Fin tx) (Fin ty) = Fin (atan (sqrt (tan tx * tan tx + tan ty * tan ty))).
Proof.
  intros Hx Hy. unfold theta_from_theta_xy1. cbn [xabs xle].
  rewrite (proj2 (Rabs_half tx) Hx), (proj2 (Rabs_half ty) Hy). cbn [orb].
  rewrite !xtan_open by auto. unfold xsquare; cbn [xmul xadd].
  rewrite xsqrt_fin by nra. reflexivity.
Qed.
Lemma theta_from_out tx ty : ~ (open_half tx /\ open_half ty) -> theta_from_theta_xy1 (Fin tx) (Fin ty) = NaN.
Proof.
  intros Hn. unfold theta_from_theta_xy1. cbn [xabs xle].
  destruct (Rleb (PI / 2) (Rabs tx)) eqn:E1; auto. destruct (Rleb (PI / 2) (Rabs ty)) eqn:E2; auto.
  exfalso. apply Hn. split; apply Rabs_half; auto.
Qed.

(* phi of a projected direction, as a real-valued function *)
Definition phi_of (tx ty : R) : R :=
  if Req_EM_T tx 0 then (if Rlt_dec 0 ty then PI / 2 else 3 * (PI / 2))
  else if Rlt_dec tx 0 then atan (tan ty / tan tx) + PI
  else if Rlt_dec ty 0 then atan (tan ty / tan tx) + 2 * PI
  else atan (tan ty / tan tx).

Lemma phi_from_fin tx ty : open_half tx -> open_half ty -> ~ (tx = 0 /\ ty = 0) ->
  phi_from_theta_xy1 (Fin tx) (Fin ty) = Fin (phi_of tx ty).
Proof.
  intros Hx Hy Hn. pose proof PI_pos as HP. unfold phi_from_theta_xy1, phi_of. cbn [xabs xle].
  rewrite (proj2 (Rabs_half tx) Hx), (proj2 (Rabs_half ty) Hy). cbn [orb].
  rewrite !xtan_open by auto. cbn [xlt].
  destruct (Req_EM_T tx 0) as [E|Hx0].
  - subst tx. assert (ty <> 0) as Hy0 by tauto.
    rewrite tan_0. unfold xdiv. destruct (Req_EM_T 0 0) as [_|]; [|lra].
    assert (Rltb 0 0 = false) as -> by (apply Rltb_false; lra).
    assert (Rleb 0 0 = true) as -> by (apply Rleb_true; lra). cbn [andb].
    unfold inf_of_sign.
    destruct (Rlt_dec 0 ty) as [Hp|Hp].
    + destruct (Rlt_dec 0 (tan ty)) as [_|C]; [|exfalso; apply C; apply tan_sign_pos; auto].
      destruct (Rltb_spec ty 0); [lra|]. reflexivity.
    + assert (ty < 0) as Hneg by lra. assert (tan ty < 0) as Ht by (apply tan_sign_neg; auto).
      destruct (Rlt_dec 0 (tan ty)); [lra|]. destruct (Rlt_dec (tan ty) 0); [|lra].
      destruct (Rltb_spec ty 0); [|lra]. cbn. f_equal. lra.
  - rewrite xdiv_fin by (intro C; apply (proj1 (tan_zero_iff tx Hx)) in C; contradiction). cbn [xatan].
    destruct (Rlt_dec tx 0) as [Hneg|Hpos].
    + destruct (Rltb_spec tx 0); [|lra]. destruct (Rleb_spec 0 tx); [lra|]. reflexivity.
    + destruct (Rltb_spec tx 0); [lra|]. destruct (Rleb_spec 0 tx); [|lra]. cbn [andb].
      destruct (Rlt_dec ty 0); destruct (Rltb_spec ty 0); try lra; reflexivity.
Qed.
Lemma phi_from_origin : phi_from_theta_xy1 (Fin 0) (Fin 0) = NaN.
Proof.
  unfold phi_from_theta_xy1. rewrite xtan_open by (pose proof PI_pos; unfold open_half; lra).
  rewrite tan_0. cbn [xdiv]. destruct (Req_EM_T 0 0) as [_|]; [|lra].
  unfold inf_of_sign. destruct (Rlt_dec 0 0); [lra|]. cbn [xatan xlt xle xabs xadd].
  assert (Rltb 0 0 = false) as -> by (apply Rltb_false; lra). rewrite andb_false_r.
  destruct (_ || _); reflexivity.
Qed.
Lemma phi_from_out tx ty : ~ (open_half tx /\ open_half ty) -> phi_from_theta_xy1 (Fin tx) (Fin ty) = NaN.
Proof.
  intros Hn. unfold phi_from_theta_xy1. cbn [xabs xle].
  destruct (Rleb (PI / 2) (Rabs tx)) eqn:E1; auto. destruct (Rleb (PI / 2) (Rabs ty)) eqn:E2; auto.
  exfalso. apply Hn. split; apply Rabs_half; auto.
Qed.

(* cosine and sine of phi_of, in terms of the tangents *)
Lemma phi_of_cs tx ty : open_half tx -> open_half ty -> ~ (tx = 0 /\ ty = 0) ->
  let r := sqrt (tan tx * tan tx + tan ty * tan ty) in
  0 < r /\ cos (phi_of tx ty) = tan tx / r /\ sin (phi_of tx ty) = tan ty / r.
Proof.
  intros Hx Hy Hn r. pose proof PI_pos as HP.
  assert (0 < r) as Hr.
  { apply norm_pos. destruct (Req_dec tx 0) as [E|E].
    - right. intro C. apply (proj1 (tan_zero_iff ty Hy)) in C. tauto.
    - left. intro C. apply (proj1 (tan_zero_iff tx Hx)) in C. contradiction. }
  split; auto. unfold phi_of.
  destruct (Req_EM_T tx 0) as [E|Hx0].
  - subst tx. assert (r = Rabs (tan ty)) as Er.
    { unfold r. rewrite tan_0. rewrite <- sqrt_sq_abs. f_equal. ring. }
    rewrite tan_0. destruct (Rlt_dec 0 ty) as [Hp|Hp].
    + rewrite cos_PI2, sin_PI2, Er. rewrite Rabs_pos_eq by (left; apply tan_sign_pos; auto).
      assert (0 < tan ty) by (apply tan_sign_pos; auto). split; field; lra.
    + assert (tan ty < 0) as Ht by (apply tan_sign_neg; auto; lra).
      rewrite cos_3PI2, sin_3PI2, Er, Rabs_left by auto. split; field; lra.
  - assert (tan tx <> 0) as Ht0 by (intro C; apply (proj1 (tan_zero_iff tx Hx)) in C; contradiction).
    pose proof (cos_atan_ratio (tan tx) (tan ty) Ht0) as Ec. fold r in Ec.
    pose proof (sin_atan_ratio (tan tx) (tan ty) Ht0) as Es. fold r in Es.
    destruct (Rlt_dec tx 0) as [Hneg|Hpos].
    + assert (tan tx < 0) as Ht by (apply tan_sign_neg; auto).
      rewrite neg_cos, neg_sin, Ec, Es, Rabs_left by auto. split; field; lra.
    + assert (0 < tan tx) as Ht by (apply tan_sign_pos; auto; lra).
      rewrite Rabs_pos_eq in Ec, Es by lra.
      assert (tan ty * tan tx / tan tx = tan ty) as Q by (field; lra). rewrite Q in Es.
      destruct (Rlt_dec ty 0).
      * replace (atan (tan ty / tan tx) + 2 * PI) with (atan (tan ty / tan tx) + 2 * INR 1 * PI) by (simpl; ring).
        rewrite cos_period, sin_period. auto.
      * auto.
Qed.

Lemma phi_of_range tx ty : open_half tx -> open_half ty -> 0 <= phi_of tx ty < 2 * PI.
Proof.
  intros Hx Hy. pose proof PI_pos as HP. unfold phi_of.
  pose proof (atan_bound (tan ty / tan tx)) as B.
  destruct (Req_EM_T tx 0); [destruct (Rlt_dec 0 ty); lra|].
  destruct (Rlt_dec tx 0) as [Hneg|Hpos]; [lra|].
  assert (0 < tan tx) as Ht by (apply tan_sign_pos; auto; lra).
  destruct (Rlt_dec ty 0) as [Hy0|Hy0].
  - assert (atan (tan ty / tan tx) < 0); [|lra]. apply atan_sign_neg.
    assert (tan ty < 0) by (apply tan_sign_neg; auto).
    apply Rmult_lt_reg_r with (tan tx); auto. unfold Rdiv. rewrite Rmult_assoc, Rinv_l by lra. lra.
  - assert (0 <= atan (tan ty / tan tx)); [|lra]. apply atan_nonneg.
    assert (0 <= tan ty). { destruct (Req_dec ty 0) as [->|]; [rewrite tan_0; lra|]. left. apply tan_sign_pos; auto; lra. }
    apply Rmult_le_pos; [auto|]. left. apply Rinv_0_lt_compat; auto.
Qed.

Lemma theta_of_pos tx ty : open_half tx -> open_half ty ->
  let th := atan (sqrt (tan tx * tan tx + tan ty * tan ty)) in 0 <= th < PI / 2.
Proof. intros Hx Hy th. apply tan_atan_ge_sqrt. apply sqrt_pos. Qed.

Lemma proj_back tx ty : open_half tx -> open_half ty -> ~ (tx = 0 /\ ty = 0) ->
  let th := atan (sqrt (tan tx * tan tx + tan ty * tan ty)) in
  proj_x th (phi_of tx ty) = tx /\ proj_y th (phi_of tx ty) = ty.
Proof.
  intros Hx Hy Hn th. destruct (phi_of_cs tx ty Hx Hy Hn) as (Hr & Ec & Es).
  unfold proj_x, proj_y, th. rewrite tan_atan, Ec, Es.
  split.
  - transitivity (atan (tan tx)); [f_equal; field; lra | apply atan_tan; exact Hx].
  - transitivity (atan (tan ty)); [f_equal; field; lra | apply atan_tan; exact Hy].
Qed.

(* angles in one turn are determined by cosine and sine *)
Lemma angle_unique a b : 0 <= a < 2 * PI -> 0 <= b < 2 * PI -> cos a = cos b -> sin a = sin b -> a = b.
Proof.
  intros Ha Hb Hc Hs. pose proof PI_pos as HP.
  assert (cos (a - b) = 1) as E by (rewrite cos_minus, Hc, Hs; pose proof (sin2_cos2' b); lra).
  assert (sin ((a - b) / 2) = 0) as E2.
  { assert (cos (a - b) = 1 - 2 * sin ((a - b) / 2) * sin ((a - b) / 2)) as K.
    { replace (a - b) with (2 * ((a - b) / 2)) at 1 by field. rewrite cos_2a_sin. ring. }
    nra. }
  apply sin_eq_0_0 in E2 as [k Hk].
  assert (a - b = IZR k * (2 * PI)) as Hd by lra.
  assert (-1 < IZR k < 1) as Bk by (split; nra).
  destruct Bk as [B1 B2].
  assert (-1 < k < 1)%Z as [C1 C2] by (split; apply lt_IZR; lra).
  assert (k = 0%Z) by lia. subst k. lra.
Qed.

Lemma round_trip th ph : 0 < th < PI / 2 -> 0 <= ph < 2 * PI ->
  theta_from_theta_xy1 (Fin (proj_x th ph)) (Fin (proj_y th ph)) = Fin th
  /\ phi_from_theta_xy1 (Fin (proj_x th ph)) (Fin (proj_y th ph)) = Fin ph.
Proof.
  intros Ht Hp. pose proof PI_pos as HP.
  assert (open_half (proj_x th ph)) as Hx by (unfold proj_x, open_half; pose proof (atan_bound (tan th * cos ph)); lra).
  assert (open_half (proj_y th ph)) as Hy by (unfold proj_y, open_half; pose proof (atan_bound (tan th * sin ph)); lra).
  assert (0 < tan th) as HT by (apply tan_pos; lra).
  assert (tan (proj_x th ph) = tan th * cos ph) as Ex by apply tan_atan.
  assert (tan (proj_y th ph) = tan th * sin ph) as Ey by apply tan_atan.
  assert (sqrt (tan (proj_x th ph) * tan (proj_x th ph) + tan (proj_y th ph) * tan (proj_y th ph)) = tan th) as Er.
  { rewrite Ex, Ey. replace (tan th * cos ph * (tan th * cos ph) + tan th * sin ph * (tan th * sin ph))
      with (tan th * tan th * (sin ph * sin ph + cos ph * cos ph)) by ring.
    rewrite sin2_cos2', Rmult_1_r. apply sqrt_square; lra. }
  assert (~ (proj_x th ph = 0 /\ proj_y th ph = 0)) as Hn.
  { intros [C1 C2]. rewrite C1, C2, tan_0 in Er. replace (0 * 0 + 0 * 0) with 0 in Er by ring. rewrite sqrt_0 in Er. lra. }
  split.
  - rewrite theta_from_fin, Er by auto. f_equal. apply atan_tan. lra.
  - rewrite phi_from_fin by auto. f_equal.
    destruct (phi_of_cs _ _ Hx Hy Hn) as (_ & Ec & Es). rewrite Er, Ex in Ec. rewrite Er, Ey in Es.
    apply angle_unique; auto using phi_of_range.
    + rewrite Ec. field. lra.
    + rewrite Es. field. lra.
Qed.

(* ---------- scatter_dtheta_xy (C07) ---------- *)
Definition turned_xy (c : turn_case) : muon :=
  if c_sel c then turn_xy1 (Some (Fin (c_da c))) (Some (Fin (c_db c))) (c_mu c) else c_mu c.

Lemma turn_xy_cases {H} cs removed hits hist :
  scatter_dtheta_xy (H := H) (Some (c_arg_a cs)) (Some (c_arg_b cs)) (Some (c_mask cs))
    (Batch (map c_mu cs) removed hits hist)
  = remove_upwards_muons (Batch (map turned_xy cs) removed hits hist).
Proof.
  unfold scatter_dtheta_xy. cbv zeta. cbn [b_muons mask_or_ones].
  pose proof (turn_xy_spec (map c_mu cs) (Some (c_mask cs))) as T.
  specialize (T ltac:(simpl; unfold c_mask; rewrite !map_length, Nat.eqb_refl; auto)).
  specialize (T (Some (SEach (map (fun c => Fin (c_da c)) cs))) (Some (SEach (map (fun c => Fin (c_db c)) cs)))).
  specialize (T ltac:(simpl; rewrite !map_length, Nat.eqb_refl; auto) ltac:(simpl; rewrite !map_length, Nat.eqb_refl; auto)).
  cbn [call_argo mask_or_ones] in T. unfold c_mask in T. rewrite !call_vec in T. cbn [mask_or_ones] in T.
  change (Vec (map (fun c => Fin (c_da c)) (filter c_sel cs))) with (c_arg_a cs) in T.
  change (Vec (map (fun c => Fin (c_db c)) (filter c_sel cs))) with (c_arg_b cs) in T.
  unfold c_mask. rewrite T. cbn [bind].
  rewrite (upd_cases c_sel c_mu _ turned_xy); [reflexivity|].
  intros i c Hc. unfold turned_xy. destruct (c_sel c); auto.
  cbn [at_io at_i]. rewrite !(nth_map_some _ _ _ _ _ Hc). reflexivity.
Qed.

Lemma in_half_iff t : in_half t = true <-> open_half t.
Proof. unfold in_half, open_half. rewrite andb_true_iff, !Rltb_true. tauto. Qed.
Lemma turned_xy_val c : 0 <= c_th c < PI / 2 -> c_sel c = true ->
  turned_xy c = Mu (c_x c) (c_y c) (c_z c) (c_p c)
    (theta_from_theta_xy1 (Fin (n_tx c)) (Fin (n_ty c))) (phi_from_theta_xy1 (Fin (n_tx c)) (Fin (n_ty c))).
Proof.
  intros Ht Hs. unfold turned_xy. rewrite Hs. unfold turn_xy1, c_mu. cbn [mth mph mx my mz mp].
  rewrite theta_x_fin, theta_y_fin by auto. reflexivity.
Qed.

Lemma turned_xy_keep c : 0 <= c_th c < PI / 2 -> keep_down (turned_xy c) = kept_xy c.
Proof.
  intro Ht. unfold kept_xy. destruct (c_sel c) eqn:Hs; cbn [negb orb].
  - rewrite turned_xy_val by auto. unfold keep_down; cbn [mth mph].
    destruct (in_half (n_tx c)) eqn:E1; [destruct (in_half (n_ty c)) eqn:E2|]; cbn [andb].
    + apply in_half_iff in E1, E2. rewrite theta_from_fin by auto.
      destruct (theta_of_pos _ _ E1 E2) as [_ Hlt]. cbn [xlt xisnan negb].
      rewrite (proj2 (Rltb_true _ _) Hlt).
      destruct (Reqb_spec (n_tx c) 0) as [Z1|Z1]; [destruct (Reqb_spec (n_ty c) 0) as [Z2|Z2]|].
      * rewrite Z1, Z2, phi_from_origin. reflexivity.
      * rewrite phi_from_fin by (auto; tauto). reflexivity.
      * rewrite phi_from_fin by (auto; tauto). reflexivity.
    + rewrite theta_from_out; [reflexivity|]. intros [_ C]. apply in_half_iff in C. congruence.
    + rewrite theta_from_out; [reflexivity|]. intros [C _]. apply in_half_iff in C. congruence.
  - unfold turned_xy. rewrite Hs. unfold keep_down, c_mu; cbn [mth mph xlt xisnan]. rewrite !andb_true_r.
    apply Rltb_true; lra.
Qed.

Lemma scatter_dtheta_xy_correct {H} cs removed (hits : hits_dict H) hist :
  (forall c, In c cs -> 0 <= c_th c < PI / 2) -> aligned (len cs) hits ->
  exists b', scatter_dtheta_xy (Some (c_arg_a cs)) (Some (c_arg_b cs)) (Some (c_mask cs))
    (Batch (map c_mu cs) removed hits hist) = Ok b' /\
  Forall2 (fun c u =>
      same_place c u /\
      exists t p, mth u = Fin t /\ mph u = Fin p
        /\ (c_sel c = true -> 0 <= t < PI / 2 /\ 0 <= p < 2 * PI
                              /\ proj_x t p = n_tx c /\ proj_y t p = n_ty c)
        /\ (c_sel c = false -> t = c_th c /\ p = c_ph c))
    (filter kept_xy cs) (b_muons b').
Proof.
  intros Hcs A. rewrite turn_xy_cases.
  destruct (remove_ok (Batch (map turned_xy cs) removed hits hist)) as [b' E];
    [cbn [b_muons b_hits]; rewrite map_length; exact A|].
  exists b'. split; [exact E|]. clear A.
  apply remove_upwards_effect in E as [E1 _].
  cbn [b_muons] in E1. rewrite E1, filter_map_comm.
  assert (filter (fun c => keep_down (turned_xy c)) cs = filter kept_xy cs) as ->
    by (apply filter_ext_in; intros c Hc; apply turned_xy_keep; auto).
  clear E1. revert Hcs. induction cs as [|c cs IH]; intro Hcs; simpl; [constructor|].
  assert (0 <= c_th c < PI / 2) as Ht by (apply Hcs; simpl; auto).
  assert (forall c0, In c0 cs -> 0 <= c_th c0 < PI / 2) as Hcs' by (intros; apply Hcs; simpl; auto).
  destruct (kept_xy c) eqn:K; [|auto]. simpl. constructor; [|auto].
  destruct (c_sel c) eqn:Hs.
  - unfold kept_xy in K. rewrite Hs in K. cbn [negb orb] in K.
    apply andb_true_iff in K as [K K3]. apply andb_true_iff in K as [K1 K2].
    apply in_half_iff in K1, K2.
    assert (~ (n_tx c = 0 /\ n_ty c = 0)) as Hn.
    { intros [Z1 Z2]. apply Reqb_true in Z1, Z2. rewrite Z1, Z2 in K3. discriminate. }
    rewrite turned_xy_val by auto. rewrite theta_from_fin, phi_from_fin by auto.
    split; [repeat split|]. cbn. eexists. eexists. split; [reflexivity|]. split; [reflexivity|].
    destruct (proj_back _ _ K1 K2 Hn) as [P1 P2].
    split; [|intro; discriminate]. intros _. repeat split; auto; try apply theta_of_pos; auto; apply phi_of_range; auto.
  - unfold turned_xy. rewrite Hs. split; [repeat split|]. exists (c_th c), (c_ph c). cbn.
    split; [reflexivity|]. split; [reflexivity|]. split; [intro; discriminate|auto].
Qed.

Lemma vertical_lost :
  exists c : turn_case,
    c_sel c = true /\ 0 <= c_th c < PI / 2 /\ open_half (n_tx c) /\ open_half (n_ty c)
    /\ scatter_dtheta_xy (H := nat) (Some (c_arg_a [c])) (Some (c_arg_b [c])) (Some (c_mask [c])) (Batch [c_mu c] None [] [])
       = Ok (Batch [] (Some [Mu (c_x c) (c_y c) (c_z c) (c_p c) (Fin 0) NaN]) [] []).
Proof.
  exists (TC true (Fin 0) (Fin 0) (Fin 1) (Fin 5) 0 0 0 0). pose proof PI_pos.
  set (c := TC true (Fin 0) (Fin 0) (Fin 1) (Fin 5) 0 0 0 0).
  assert (n_tx c = 0) as E1 by (unfold n_tx, proj_x; simpl; rewrite tan_0, Rmult_0_l, atan_0; ring).
  assert (n_ty c = 0) as E2 by (unfold n_ty, proj_y; simpl; rewrite tan_0, Rmult_0_l, atan_0; ring).
  rewrite E1, E2. unfold open_half.
  split; [reflexivity|]. split; [simpl; lra|]. split; [lra|]. split; [lra|].
  change [c_mu c] with (map c_mu [c]). rewrite turn_xy_cases. cbn [map].
  rewrite (turned_xy_val c) by (reflexivity || (simpl; lra)). rewrite E1, E2, phi_from_origin.
  rewrite theta_from_fin by (unfold open_half; lra).
  rewrite tan_0. replace (0 * 0 + 0 * 0) with 0 by ring. rewrite sqrt_0, atan_0.
  unfold remove_upwards_muons. cbn [b_muons map]. unfold keep_down at 1. cbn [mth mph xisnan negb]. rewrite andb_false_r.
  reflexivity.
Qed.
