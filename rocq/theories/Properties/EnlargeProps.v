(* Property C114: only ratios of lengths matter, except in the differentiable mode of the panels. *)
From Coq Require Import Reals List String Lra Lia ZArith.
From Verif Require Import Model.Volume Spec.VolumeSpec Spec.LiftSpec Spec.EnlargeSpec Proofs.VolumeP Proofs.VolumeRun Proofs.LiftP Proofs.LiftInferP Proofs.EnlargeP Properties.VolumeProps.
From Verif Require Import Base.XR.
Open Scope R_scope.
Open Scope string_scope.
Open Scope list_scope.

(* C114. Let all lengths - the volume, its voxels, steps and radiation lengths, the panels with resolutions and costs per area in the new unit, and the
   places of the muons - be multiplied by k.  With the same random numbers muons then cross the volume in the same way in realistic evaluation: all
   places and their uncertainties are multiplied by k, angles, momenta, efficiencies and budgets stay; the same muons are removed, exceptions are
   the same and the loops stop when they stopped before.  So no length is written into the code. *)
Theorem C114_volume :
  forall k argsort o V b, 0 < k -> by_comparison argsort -> Forall (fun P => pn_real P = true) (all_panels (v_layers V)) ->
  volume_forward argsort false o (big_volume k V) (big_batch k b) =
  option_map (rmap (fun vb => (big_volume k (fst vb), big_batch k (snd vb)))) (volume_forward argsort false o V b).
Proof. intros. now apply forward_k. Qed.
Print Assumptions C114_volume.

(* C114. Passive layers behave in this way in every mode. *)
Theorem C114_layer :
  forall k L rng fuel b, 0 < k -> layer_forward (big_passive k L) rng fuel (big_batch k b) = option_map (rmap (big_batch k)) (layer_forward L rng fuel b).
Proof. intros. now apply layer_kb. Qed.
Print Assumptions C114_layer.

(* C114. The efficiency of a panel is the same in every mode, and so is its cost. *)
Lemma normal_k k l s v : 0 < k -> 0 < s -> normal_prob (k * l) (k * s) (big k v) = rmap (fun a => xdiv a (Fin k)) (normal_prob l s v).
Proof.
  intros K S. unfold normal_prob. rewrite B_grow by assumption. destruct (Rleb_spec (k * s) 0); [nra|]. destruct (Rleb_spec s 0); [lra|]. destruct v as [x| | |]; cbn [grow rmap]; try reflexivity.
  - unfold xdiv. destruct (Req_EM_T k 0); [lra|]. do 2 f_equal. rewrite ln_mult by assumption.
    replace (- (k * x - k * l) * (k * x - k * l) / (2 * (k * s * (k * s))) - (ln k + ln s) - ln (sqrt (2 * PI)))
      with (- (x - l) * (x - l) / (2 * (s * s)) - ln s - ln (sqrt (2 * PI)) + - ln k) by (field; split; lra).
    rewrite exp_plus, exp_Ropp, exp_ln by assumption. reflexivity.
  - unfold xdiv. destruct (Req_EM_T k 0); [lra|]. do 2 f_equal. unfold Rdiv. ring.
  - unfold xdiv. destruct (Req_EM_T k 0); [lra|]. do 2 f_equal. unfold Rdiv. ring.
Qed.
Lemma fraction_k k resp l s v : 0 < k -> fraction1 resp (k * l) (k * s) (big k v) = fraction1 resp l s v.
Proof.
  intro K. unfold fraction1. destruct resp as [|sm].
  - replace (k * s / 4) with (k * (s / 4)) by field. destruct (Rlt_dec 0 (s / 4)) as [S|S].
    + change (Fin (k * l)) with (big k (Fin l)). rewrite !normal_k by assumption. unfold normal_prob. destruct (Rleb_spec (s / 4) 0); [lra|].
      destruct v as [x| | |]; try reflexivity; cbn [rmap bind]; unfold xdiv; repeat destruct (Req_EM_T _ _); try lra;
        try (exfalso; match goal with H : exp ?t / k = 0 |- _ => pose proof (exp_pos t); assert (exp t = 0) by (replace (exp t) with (exp t / k * k) by (field; lra); rewrite H; ring); lra end);
        try (exfalso; match goal with H : exp ?t = 0 |- _ => pose proof (exp_pos t); lra end); do 2 f_equal; field; repeat split; try lra; apply Rgt_not_eq, exp_pos.
    + unfold normal_prob. destruct (Rleb_spec (k * (s / 4)) 0); [|nra]. destruct (Rleb_spec (s / 4) 0); [|lra]. reflexivity.
  - unfold sig_model1. cbv zeta. replace (k * s / 2) with (k * (s / 2)) by field. change (Fin (k * l)) with (big k (Fin l)). rewrite B_sub, B_ratio by assumption. reflexivity.
Qed.
Theorem C114_efficiency :
  forall k P tr inside x y, 0 < k -> get_efficiency1 (big_panel k P) tr inside (big k x) (big k y) = get_efficiency1 P tr inside x y.
Proof.
  intros k P tr inside x y K. unfold get_efficiency1. cbn [big_panel pn_real pn_resp pn_eff pn_x pn_y]. rewrite spx, spy. destruct (tr || negb (pn_real P))%bool; [|reflexivity].
  now rewrite !fraction_k.
Qed.
Print Assumptions C114_efficiency.
Theorem C114_cost : forall k P, 0 < k -> panel_cost (big_panel k P) = panel_cost P.
Proof. intros k P K. unfold panel_cost. rewrite spx, spy. cbn. field. lra. Qed.
Print Assumptions C114_cost.

(* C114. In the differentiable mode a resolution is at least 1e-10, whatever the unit: the uncertainty of a muon three metres beside a panel of
   one metre is 1e10 metres, and still 1e10 in units of half a metre. *)
Lemma exp_72 : 10000000000 < exp 72.
Proof.
  assert (P : forall n : nat, exp (INR n) = exp 1 ^ n). { induction n as [|n IH]; [apply exp_0|]. rewrite S_INR, exp_plus, IH. cbn. ring. }
  assert (E : exp 72 = exp 1 ^ 72). { rewrite <- P. f_equal. rewrite INR_IZR_INZ. reflexivity. } rewrite E.
  assert (2 ^ 72 <= exp 1 ^ 72). { apply pow_incr. pose proof (exp_ineq1 1). lra. } lra.
Qed.
Lemma far_resolution n l s x : 0 <= n <= 1 -> 0 < s -> (x - l) = 3 * s -> resolution1 Gauss n l s (Fin x) = Ok (Fin (1 / 10000000000)).
Proof.
  intros N S X. unfold resolution1, normal_prob. destruct (Rleb_spec (s / 4) 0); [lra|]. cbn [bind]. set (C := - ln (s / 4) - ln (sqrt (2 * PI))).
  replace (- (x - l) * (x - l) / (2 * (s / 4 * (s / 4))) - ln (s / 4) - ln (sqrt (2 * PI))) with (C + - (72)) by (unfold C; rewrite X; field; lra).
  replace (- (l - l) * (l - l) / (2 * (s / 4 * (s / 4))) - ln (s / 4) - ln (sqrt (2 * PI))) with C by (unfold C; field; lra).
  cbn [xmul]. unfold xdiv. pose proof (exp_pos C). destruct (Req_EM_T (exp C) 0); [lra|]. cbn [xclamp_min]. do 2 f_equal. rewrite exp_plus, exp_Ropp.
  apply Rmax_right. replace (n * (exp C * / exp 72) / exp C) with (n * / exp 72) by (field; split; [apply Rgt_not_eq, exp_pos|lra]).
  pose proof exp_72. assert (/ exp 72 < / 10000000000) by (apply Rinv_lt_contravar; [|assumption]; assert (0 < exp 72) by apply exp_pos; nra).
  assert (0 < / exp 72) by (apply Rinv_0_lt_compat, exp_pos). nra.
Qed.
Lemma mid_resolution n l s : 1 / 10000000000 <= n -> 0 < s -> resolution1 Gauss n l s (Fin l) = Ok (Fin n).
Proof.
  intros N S. unfold resolution1, normal_prob. destruct (Rleb_spec (s / 4) 0); [lra|]. cbn [bind xmul]. unfold xdiv. set (C := _ - ln (sqrt _)). pose proof (exp_pos C).
  destruct (Req_EM_T (exp C) 0); [lra|]. cbn [xclamp_min]. do 2 f_equal. rewrite Rmax_left; [field; lra|]. replace (n * exp C / exp C) with n by (field; lra). exact N.
Qed.
Theorem C114_training_refuted :
  exists k P x y r r', 0 < k /\ panel_ok P /\ resp_ok (pn_resp P) /\ get_resolution1 P true false x y = Ok r /\ get_resolution1 (big_panel k P) true false (big k x) (big k y) = Ok r'
  /\ xdiv (Fin 1) (fst r) = Fin 10000000000 /\ xdiv (Fin 1) (fst r') = Fin 10000000000 /\ xdiv (Fin 1) (snd r') = big k (xdiv (Fin 1) (snd r)).
Proof.
  exists 2, (Panel Gauss 1 1 0 0 0 1 1 1 1 true), (Fin 3), (Fin 0), (Fin (1 / 10000000000), Fin 1), (Fin (1 / 10000000000), Fin (1 / 2)).
  split; [lra|]. split; [unfold panel_ok; cbn; lra|]. split; [exact I|]. unfold get_resolution1, span_x, span_y. cbn [big_panel pn_real pn_resp pn_res pn_x pn_y pn_sx pn_sy pn_scale orb].
  split; [|split; [|split; [|split]]].
  - rewrite far_resolution by lra. cbn [bind]. rewrite mid_resolution by lra. reflexivity.
  - cbn [big xmul]. rewrite far_resolution by lra. cbn [bind]. replace (2 * 0) with 0 by ring. rewrite mid_resolution by lra. reflexivity.
  - cbn. destruct (Req_EM_T _ 0); [lra|]. f_equal. field.
  - cbn. destruct (Req_EM_T _ 0); [lra|]. f_equal. field.
  - cbn. destruct (Req_EM_T (1 / 2) 0); [lra|]. destruct (Req_EM_T 1 0); [lra|]. cbn. f_equal. field.
Qed.
Print Assumptions C114_training_refuted.

Example C114_case :
  by_comparison argsort_ins /\ Forall (fun P => pn_real P = true) (all_panels (v_layers small_volume)) /\ v_layers small_volume <> []
  /\ big_panel 100 (a_panel 3) = Panel Gauss (1000 / 100) (9/10) (100 * (1/2)) (100 * (1/2)) (100 * 3) (100 * 1) (100 * 1) (1 / (100 * 100)) 1 true.
Proof. split; [exact ins_compares|]. split; [repeat constructor|]. split; [discriminate|reflexivity]. Qed.
