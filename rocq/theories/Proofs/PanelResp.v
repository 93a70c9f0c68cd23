(* C18, C19: what a panel reports. *)
From Coq Require Import ZArith Psatz.
From Verif Require Import Model.Volume Spec.VolumeSpec Proofs.MuonConserve Proofs.PanelP.
Open Scope R_scope.
Open Scope string_scope.
Open Scope list_scope.

(* ---------- C18 ---------- *)
Lemma xclamp_fin lo hi x : xclamp lo hi (Fin x) = Fin (Rclamp lo hi x).
Proof. reflexivity. Qed.

Lemma hit1_realistic P g x y : pn_real P = true -> 0 < pn_res P ->
  0 <= span_x P -> 0 <= span_y P ->
  exists a b u e, hit1 P false g (Fin x) (Fin y) = Ok ([a; b; Fin (pn_z P)], [Fin x; Fin y; Fin (pn_z P)], [u; u; Fin 0], [e])
  /\ (pn_x P - span_x P / 2 <= x < pn_x P + span_x P / 2 /\ pn_y P - span_y P / 2 <= y < pn_y P + span_y P / 2 ->
      exists a' b', a = Fin a' /\ b = Fin b'
      /\ pn_x P - span_x P / 2 <= a' <= pn_x P + span_x P / 2 /\ pn_y P - span_y P / 2 <= b' <= pn_y P + span_y P / 2
      /\ u = Fin (1 / pn_res P) /\ e = Fin (pn_eff P))
  /\ (~ (pn_x P - span_x P / 2 <= x < pn_x P + span_x P / 2 /\ pn_y P - span_y P / 2 <= y < pn_y P + span_y P / 2) ->
      xisfin a = false /\ xisfin b = false /\ u = PInf /\ e = Fin 0).
Proof.
  intros Hr Hres Hx Hy. unfold hit1. set (inside := in_xy _ _ _).
  assert (inside = true <-> pn_x P - span_x P / 2 <= x < pn_x P + span_x P / 2 /\ pn_y P - span_y P / 2 <= y < pn_y P + span_y P / 2) as Hin.
  { unfold inside, in_xy. cbn. rewrite !andb_true_iff, !Rleb_true, !Rltb_true. tauto. }
  unfold get_resolution1, get_efficiency1. rewrite Hr. cbn [orb negb andb].
  destruct inside.
  - cbn [bind fst snd]. do 4 eexists. split.
    + rewrite !(xdiv_fin _ (pn_res P)) by lra. reflexivity.
    + split; [|intro Hn; exfalso; apply Hn, Hin; auto]. intros _. unfold xsub; cbn [xadd xopp xclamp].
      do 2 eexists. split; [reflexivity|]. split; [reflexivity|].
      pose proof (Rclamp_bounds 0 (span_x P) (x + - (pn_x P - span_x P / 2) + fst g / pn_res P) Hx).
      pose proof (Rclamp_bounds 0 (span_y P) (y + - (pn_y P - span_y P / 2) + snd g / pn_res P) Hy).
      split; [lra|]. split; [lra|]. auto.
  - cbn [bind fst snd]. do 4 eexists. split; [reflexivity|].
    split; [intro Hn; apply Hin in Hn; discriminate|]. intros _.
    assert (forall r, xdiv (Fin r) (Fin 0) = inf_of_sign r) as D by (intro r; cbn; destruct (Req_EM_T 0 0); [auto|congruence]).
    rewrite !D. unfold inf_of_sign. unfold xsub; cbn [xadd xopp]. split; [|split; [|split; auto]].
    + repeat destruct (Rlt_dec _ _); reflexivity.
    + repeat destruct (Rlt_dec _ _); reflexivity.
    + destruct (Rlt_dec 0 1); [auto|lra].
Qed.

Lemma mapM_total {A B} (f : A -> res B) l : (forall a, In a l -> exists b, f a = Ok b) -> exists r, mapM f l = Ok r.
Proof.
  induction l as [|a l IH]; intro Hf; simpl; [eauto|]. destruct (Hf a (or_introl eq_refl)) as [b ->]. cbn [bind].
  destruct IH as [r ->]; [intros; apply Hf; right; auto|]. cbn. eauto.
Qed.

Lemma realistic_hits P rng ms : pn_real P = true -> 0 < pn_res P -> 0 <= span_x P -> 0 <= span_y P ->
  (forall u, In u ms -> exists x y, mx u = Fin x /\ my u = Fin y) ->
  exists reco gen unc eff,
    panel_hits P false rng ms = Ok [("reco_xyz", reco); ("gen_xyz", gen); ("unc_xyz", unc); ("eff", eff)]
    /\ forall i u x y, nth_error ms i = Some u -> mx u = Fin x -> my u = Fin y ->
       exists a b w e, nth_error reco i = Some [a; b; Fin (pn_z P)] /\ nth_error gen i = Some [Fin x; Fin y; Fin (pn_z P)]
       /\ nth_error unc i = Some [w; w; Fin 0] /\ nth_error eff i = Some [e]
  /\ (pn_x P - span_x P / 2 <= x < pn_x P + span_x P / 2 /\ pn_y P - span_y P / 2 <= y < pn_y P + span_y P / 2 ->
      exists a' b', a = Fin a' /\ b = Fin b'
      /\ pn_x P - span_x P / 2 <= a' <= pn_x P + span_x P / 2 /\ pn_y P - span_y P / 2 <= b' <= pn_y P + span_y P / 2
      /\ w = Fin (1 / pn_res P) /\ e = Fin (pn_eff P))
  /\ (~ (pn_x P - span_x P / 2 <= x < pn_x P + span_x P / 2 /\ pn_y P - span_y P / 2 <= y < pn_y P + span_y P / 2) ->
      xisfin a = false /\ xisfin b = false /\ w = PInf /\ e = Fin 0).
Proof.
  intros Hr Hres Hx Hy Hms.
  assert (exists h, panel_hits P false rng ms = Ok h) as [h Eh].
  { unfold panel_hits. destruct (mapM_total (fun iu : nat * muon => hit1 P false (rng (fst iu)) (mx (snd iu)) (my (snd iu)))
       (combine (seq 0 (len ms)) ms)) as [r Er]; [|cbv beta in Er; rewrite Er; cbn; eauto].
    intros [i u] Hin. apply in_combine_r in Hin. destruct (Hms u Hin) as (x & y & Ex & Ey). cbn [fst snd]. rewrite Ex, Ey.
    destruct (hit1_realistic P (rng i) x y Hr Hres Hx Hy) as (a & b & w & e & E & _). eauto. }
  pose proof Eh as Eh'. apply panel_hits_inv in Eh' as (rows & -> & Lr & Hrows).
  do 4 eexists. split; [exact Eh|]. intros i u x y Hu Ex Ey. destruct (Hrows i u Hu) as (q & Hq & E).
  rewrite Ex, Ey in E. destruct (hit1_realistic P (rng i) x y Hr Hres Hx Hy) as (a & b & w & e & E' & Hi & Ho).
  rewrite E in E'. injection E' as ->. exists a, b, w, e. rewrite !nth_error_map, Hq. cbn. auto 12.
Qed.

(* ---------- C19 ---------- *)
Lemma sigmoid_pos x : 0 < sigmoid x.
Proof. unfold sigmoid. apply Rdiv_lt_0_compat; [lra|]. pose proof (exp_pos (- x)); lra. Qed.
Lemma sigmoid_mono x y : x <= y -> sigmoid x <= sigmoid y.
Proof.
  intro H. unfold sigmoid. pose proof (exp_pos (- x)). pose proof (exp_pos (- y)).
  assert (exp (- y) <= exp (- x)) by (destruct H as [H| ->]; [left; apply exp_increasing; lra|lra]).
  unfold Rdiv. rewrite !Rmult_1_l. apply Rinv_le_contravar; lra.
Qed.

(* fraction of the nominal response along one axis, as a function of the distance from the centre *)
Definition frac (resp : response) (span d : R) : R :=
  match resp with
  | Gauss => exp (- (d * d) / (2 * (span / 4 * (span / 4))))
  | Sig s => sigmoid ((1 - Rabs d / (span / 2)) / s) / sigmoid (1 / s)
  end.
Lemma normal_ratio loc sg x : 0 < sg ->
  exists a b, normal_prob loc sg (Fin x) = Ok (Fin a) /\ normal_prob loc sg (Fin loc) = Ok (Fin b) /\ 0 < a /\ 0 < b
  /\ a / b = exp (- ((x - loc) * (x - loc)) / (2 * (sg * sg))).
Proof.
  intro Hs. unfold normal_prob. destruct (Rleb_spec sg 0); [lra|]. do 2 eexists. split; [reflexivity|]. split; [reflexivity|].
  split; [apply exp_pos|]. split; [apply exp_pos|]. unfold Rdiv at 1. rewrite <- exp_Ropp, <- exp_plus. f_equal. field. lra.
Qed.

Lemma xsign_abs d : xmul (xsign (Fin d)) (Fin d) = Fin (Rabs d).
Proof.
  unfold xsign. cbn [xmul]. f_equal. unfold Rabs. destruct (Rlt_dec 0 d), (Rcase_abs d); try lra.
  - destruct (Rlt_dec d 0); lra.
  - destruct (Rlt_dec d 0); lra.
Qed.

Lemma sig_frac s loc span x : 0 < s -> 0 < span -> sig_model1 s loc span (Fin x) = Fin (frac (Sig s) span (x - loc)).
Proof.
  intros Hs Hsp. unfold sig_model1. unfold xsub; cbn [xadd xopp]. rewrite xdiv_fin by lra. rewrite xsign_abs. cbn [xadd xopp].
  rewrite !xdiv_fin by lra. cbn [xsigmoid]. rewrite xdiv_fin by (apply Rgt_not_eq, sigmoid_pos). cbn [frac]. f_equal. f_equal. f_equal.
  f_equal. unfold Rminus. f_equal. f_equal. unfold Rdiv. rewrite Rabs_mult. f_equal. rewrite Rabs_pos_eq; auto.
  left. apply Rinv_0_lt_compat. lra.
Qed.

Lemma frac_pos resp span d : 0 < frac resp span d.
Proof. destruct resp; cbn; [apply exp_pos|]. apply Rdiv_lt_0_compat; apply sigmoid_pos. Qed.
Lemma frac_0 resp span : resp_ok resp -> frac resp span 0 = 1.
Proof.
  destruct resp as [|s]; cbn; intro H.
  - replace (- (0 * 0) / (2 * (span / 4 * (span / 4)))) with 0; [apply exp_0|]. unfold Rdiv. ring.
  - rewrite Rabs_R0. replace (1 - 0 / (span / 2)) with 1 by (unfold Rdiv; ring). unfold Rdiv. apply Rinv_r.
    apply Rgt_not_eq, sigmoid_pos.
Qed.
Lemma frac_mono resp span d d' : resp_ok resp -> 0 < span -> Rabs d <= Rabs d' -> frac resp span d' <= frac resp span d.
Proof.
  intros Hr Hsp Hd. destruct resp as [|s]; cbn in *.
  - assert (d * d <= d' * d') as Hq by (apply Rsqr_le_abs_1 in Hd; exact Hd).
    assert (- (d' * d') / (2 * (span / 4 * (span / 4))) <= - (d * d) / (2 * (span / 4 * (span / 4)))) as [Hl| ->]; [|left; apply exp_increasing; auto|lra].
    unfold Rdiv. apply Rmult_le_compat_r; [|lra]. left. apply Rinv_0_lt_compat. nra.
  - unfold Rdiv. apply Rmult_le_compat_r; [left; apply Rinv_0_lt_compat, sigmoid_pos|]. apply sigmoid_mono.
    assert (0 < / s) by (apply Rinv_0_lt_compat; auto). apply Rmult_le_compat_r; [lra|].
    assert (0 < / (span * / 2)) by (apply Rinv_0_lt_compat; lra).
    assert (Rabs d * / (span * / 2) <= Rabs d' * / (span * / 2)) by (apply Rmult_le_compat_r; lra). lra.
Qed.
Lemma frac_le1 resp span d : resp_ok resp -> 0 < span -> frac resp span d <= 1.
Proof.
  intros Hr Hsp. rewrite <- (frac_0 resp span Hr). apply frac_mono; auto. rewrite Rabs_R0. apply Rabs_pos.
Qed.

Lemma fraction1_frac resp loc span x : resp_ok resp -> 0 < span ->
  fraction1 resp loc span (Fin x) = Ok (Fin (frac resp span (x - loc))).
Proof.
  intros Hr Hsp. destruct resp as [|s]; cbn [fraction1].
  - destruct (normal_ratio loc (span / 4) x) as (a & b & -> & -> & Ha & Hb & E); [lra|]. cbn [bind]. rewrite xdiv_fin by lra.
    rewrite E. reflexivity.
  - rewrite sig_frac; auto.
Qed.
Lemma resolution1_frac resp nominal loc span x : resp_ok resp -> 0 < span ->
  resolution1 resp nominal loc span (Fin x) = Ok (Fin (Rmax (nominal * frac resp span (x - loc)) (1 / 10000000000))).
Proof.
  intros Hr Hsp. destruct resp as [|s]; cbn [resolution1].
  - destruct (normal_ratio loc (span / 4) x) as (a & b & -> & -> & Ha & Hb & E); [lra|]. cbn [bind xmul]. rewrite xdiv_fin by lra.
    cbn [xclamp_min]. do 3 f_equal. cbn [frac]. rewrite <- E. unfold Rdiv. ring.
  - rewrite sig_frac by auto. reflexivity.
Qed.

Definition eff_at (P : panel) (x y : R) : R :=
  let e := pn_eff P * (frac (pn_resp P) (span_x P) (x - pn_x P) * frac (pn_resp P) (span_y P) (y - pn_y P)) in
  match pn_resp P with Gauss => e | Sig _ => Rmax e (1 / 10000000000) end.
Definition res_at (nominal : R) (resp : response) (span d : R) : R := Rmax (nominal * frac resp span d) (1 / 10000000000).

Lemma response_eq P tr inside x y :
  tr || negb (pn_real P) = true -> resp_ok (pn_resp P) -> 0 < span_x P -> 0 < span_y P ->
  get_resolution1 P tr inside (Fin x) (Fin y)
    = Ok (Fin (res_at (pn_res P) (pn_resp P) (span_x P) (x - pn_x P)), Fin (res_at (pn_res P) (pn_resp P) (span_y P) (y - pn_y P)))
  /\ get_efficiency1 P tr inside (Fin x) (Fin y) = Ok (Fin (eff_at P x y)).
Proof.
  intros Ht Hr Hx Hy. unfold get_resolution1, get_efficiency1. rewrite Ht, !resolution1_frac, !fraction1_frac by auto. cbn [bind].
  split; auto. unfold eff_at. destruct (pn_resp P); reflexivity.
Qed.

Lemma res_at_mono nominal resp span d d' : resp_ok resp -> 0 < span -> 0 < nominal -> Rabs d <= Rabs d' ->
  res_at nominal resp span d' <= res_at nominal resp span d.
Proof.
  intros Hr Hs Hn Hd. pose proof (frac_mono resp span d d' Hr Hs Hd) as M. unfold res_at. apply Rle_max_compat_r.
  apply Rmult_le_compat_l; lra.
Qed.
Lemma res_at_bound nominal resp span d : resp_ok resp -> 0 < span -> 1 / 10000000000 <= nominal ->
  0 < res_at nominal resp span d <= nominal.
Proof.
  intros Hr Hs Hn. pose proof (frac_le1 resp span d Hr Hs). pose proof (frac_pos resp span d). unfold res_at. split.
  - eapply Rlt_le_trans; [|apply Rmax_r]. lra.
  - apply Rmax_lub; auto. rewrite <- (Rmult_1_r nominal) at 2. apply Rmult_le_compat_l; lra.
Qed.
Lemma eff_at_bound P x y : resp_ok (pn_resp P) -> 0 < span_x P -> 0 < span_y P -> 1 / 10000000000 <= pn_eff P ->
  0 < eff_at P x y <= pn_eff P.
Proof.
  intros Hr Hx Hy He. unfold eff_at.
  set (fx := frac (pn_resp P) (span_x P) (x - pn_x P)). set (fy := frac (pn_resp P) (span_y P) (y - pn_y P)).
  assert (0 < fx <= 1) by (split; [apply frac_pos|apply frac_le1; auto]).
  assert (0 < fy <= 1) by (split; [apply frac_pos|apply frac_le1; auto]).
  assert (0 < fx * fy <= 1) by (split; nra).
  assert (0 < pn_eff P * (fx * fy) <= pn_eff P) by (split; nra).
  destruct (pn_resp P); auto. split; [eapply Rlt_le_trans; [|apply Rmax_l]; lra|]. apply Rmax_lub; lra.
Qed.
Lemma eff_at_mono P x y x' y' : resp_ok (pn_resp P) -> 0 < span_x P -> 0 < span_y P -> 0 < pn_eff P ->
  Rabs (x - pn_x P) <= Rabs (x' - pn_x P) -> Rabs (y - pn_y P) <= Rabs (y' - pn_y P) -> eff_at P x' y' <= eff_at P x y.
Proof.
  intros Hr Hx Hy He Dx Dy. unfold eff_at.
  pose proof (frac_mono _ _ _ _ Hr Hx Dx) as Mx. pose proof (frac_mono _ _ _ _ Hr Hy Dy) as My.
  pose proof (frac_pos (pn_resp P) (span_x P) (x' - pn_x P)). pose proof (frac_pos (pn_resp P) (span_y P) (y' - pn_y P)).
  pose proof (frac_pos (pn_resp P) (span_x P) (x - pn_x P)).
  set (fx := frac (pn_resp P) (span_x P) (x - pn_x P)) in *. set (fy := frac (pn_resp P) (span_y P) (y - pn_y P)) in *.
  set (fx' := frac (pn_resp P) (span_x P) (x' - pn_x P)) in *. set (fy' := frac (pn_resp P) (span_y P) (y' - pn_y P)) in *.
  assert (fx' * fy' <= fx * fy) by nra.
  assert (pn_eff P * (fx' * fy') <= pn_eff P * (fx * fy)) by nra.
  destruct (pn_resp P); auto. apply Rle_max_compat_r; auto.
Qed.

Lemma response_shape P tr inside x y :
  tr || negb (pn_real P) = true -> resp_ok (pn_resp P) -> 0 < span_x P -> 0 < span_y P ->
  1 / 10000000000 <= pn_res P -> 1 / 10000000000 <= pn_eff P ->
  exists rx ry e, get_resolution1 P tr inside (Fin x) (Fin y) = Ok (Fin rx, Fin ry)
    /\ get_efficiency1 P tr inside (Fin x) (Fin y) = Ok (Fin e)
    /\ 0 < rx <= pn_res P /\ 0 < ry <= pn_res P /\ 0 < e <= pn_eff P
    /\ (x = pn_x P -> rx = pn_res P) /\ (y = pn_y P -> ry = pn_res P) /\ (x = pn_x P -> y = pn_y P -> e = pn_eff P)
    /\ forall x' y' rx' ry' e', get_resolution1 P tr inside (Fin x') (Fin y') = Ok (Fin rx', Fin ry') ->
         get_efficiency1 P tr inside (Fin x') (Fin y') = Ok (Fin e') ->
         (Rabs (x - pn_x P) <= Rabs (x' - pn_x P) -> rx' <= rx)
         /\ (Rabs (y - pn_y P) <= Rabs (y' - pn_y P) -> ry' <= ry)
         /\ (Rabs (x - pn_x P) <= Rabs (x' - pn_x P) -> Rabs (y - pn_y P) <= Rabs (y' - pn_y P) -> e' <= e)
         /\ (x' = 2 * pn_x P - x -> rx' = rx) /\ (y' = 2 * pn_y P - y -> ry' = ry)
         /\ ((x' = 2 * pn_x P - x \/ x' = x) -> (y' = 2 * pn_y P - y \/ y' = y) -> e' = e).
Proof.
  intros Ht Hr Hx Hy Hn He. destruct (response_eq P tr inside x y Ht Hr Hx Hy) as [E1 E2]. rewrite E1, E2.
  assert (0 < pn_res P) by lra. assert (0 < pn_eff P) by lra.
  do 3 eexists. split; [reflexivity|]. split; [reflexivity|].
  split; [apply res_at_bound; auto|]. split; [apply res_at_bound; auto|]. split; [apply eff_at_bound; auto|].
  split; [|split; [|split]].
  - intros ->. unfold res_at. rewrite Rminus_diag_eq, frac_0, Rmult_1_r, Rmax_left by auto. auto.
  - intros ->. unfold res_at. rewrite Rminus_diag_eq, frac_0, Rmult_1_r, Rmax_left by auto. auto.
  - intros -> ->. unfold eff_at. rewrite !(Rminus_diag_eq (pn_x P)), !(Rminus_diag_eq (pn_y P)), !frac_0, !Rmult_1_r by auto.
    destruct (pn_resp P); auto. rewrite Rmax_left by auto. auto.
  - intros x' y' rx' ry' e' E1' E2'. destruct (response_eq P tr inside x' y' Ht Hr Hx Hy) as [E3 E4].
    rewrite E3 in E1'. rewrite E4 in E2'. injection E1' as <- <-. injection E2' as <-.
    assert (forall c a, Rabs (2 * c - a - c) = Rabs (a - c)) as Hsym.
    { intros c a. replace (2 * c - a - c) with (- (a - c)) by ring. apply Rabs_Ropp. }
    split; [intro; apply res_at_mono; auto|]. split; [intro; apply res_at_mono; auto|]. split; [intros; apply eff_at_mono; auto|].
    split; [|split].
    + intros ->. apply Rle_antisym; apply res_at_mono; auto; rewrite Hsym; lra.
    + intros ->. apply Rle_antisym; apply res_at_mono; auto; rewrite Hsym; lra.
    + intros Dx Dy. assert (Rabs (x' - pn_x P) = Rabs (x - pn_x P)) as Ax by (destruct Dx as [->| ->]; auto).
      assert (Rabs (y' - pn_y P) = Rabs (y - pn_y P)) as Ay by (destruct Dy as [->| ->]; auto).
      apply Rle_antisym; apply eff_at_mono; auto; lra.
Qed.

Lemma nan_position P tr inside x y : tr || negb (pn_real P) = true -> pn_resp P = Gauss -> 0 < span_x P -> 0 < span_y P ->
  x = NaN \/ y = NaN ->
  get_resolution1 P tr inside x y = Err ValueError /\ get_efficiency1 P tr inside x y = Err ValueError.
Proof.
  intros M G Hx Hy N.
  assert (K : forall loc s v, 0 < s -> normal_prob loc s v = Err ValueError \/ exists r, normal_prob loc s v = Ok r).
  { intros loc s v Hs. unfold normal_prob. destruct (Rleb_spec s 0); [lra|]. destruct v; eauto. }
  assert (KN : forall loc s, 0 < s -> normal_prob loc s NaN = Err ValueError).
  { intros loc s Hs. unfold normal_prob. destruct (Rleb_spec s 0); [lra|]. auto. }
  assert (KF : forall loc s v, 0 < s -> exists r, normal_prob loc s (Fin v) = Ok r).
  { intros loc s v Hs. unfold normal_prob. destruct (Rleb_spec s 0); [lra|]. eauto. }
  destruct (KF (pn_x P) (span_x P / 4) (pn_x P) ltac:(lra)) as [cx Cx]. destruct (KF (pn_y P) (span_y P / 4) (pn_y P) ltac:(lra)) as [cy Cy].
  unfold get_resolution1, get_efficiency1, resolution1, fraction1. rewrite M, G. destruct N as [-> | ->].
  - rewrite !KN by lra. auto.
  - destruct (K (pn_x P) (span_x P / 4) x ltac:(lra)) as [-> |[r ->]]; cbn [bind]; [auto|]. rewrite Cx. cbn [bind]. rewrite !KN by lra. auto.
Qed.

(* C18, differentiable mode *)
Lemma hit1_smeared P tr g x y : tr || negb (pn_real P) = true -> resp_ok (pn_resp P) -> 0 < span_x P -> 0 < span_y P ->
  let rx := res_at (pn_res P) (pn_resp P) (span_x P) (x - pn_x P) in
  let ry := res_at (pn_res P) (pn_resp P) (span_y P) (y - pn_y P) in
  0 < rx /\ 0 < ry /\
  hit1 P tr g (Fin x) (Fin y) = Ok ([Fin (x + fst g / rx); Fin (y + snd g / ry); Fin (pn_z P)], [Fin x; Fin y; Fin (pn_z P)], [Fin (1 / rx); Fin (1 / ry); Fin 0], [Fin (eff_at P x y)]).
Proof.
  intros Ht Hr Hx Hy rx ry.
  assert (H : forall n r s d, 0 < res_at n r s d) by (intros n r s d; unfold res_at; eapply Rlt_le_trans; [|apply Rmax_r]; lra).
  assert (Px : 0 < rx) by apply H. assert (Py : 0 < ry) by apply H. split; [exact Px|]. split; [exact Py|].
  unfold hit1. set (inside := in_xy _ _ _). destruct (response_eq P tr inside x y Ht Hr Hx Hy) as [E1 E2]. rewrite E1, E2. fold rx ry. cbn [bind fst snd].
  replace (negb tr && pn_real P && inside) with false by (destruct tr, (pn_real P); try discriminate; reflexivity).
  rewrite !xdiv_fin by lra. unfold xsub. cbn [xadd xopp].
  replace (pn_x P - span_x P / 2 + (x + - (pn_x P - span_x P / 2) + fst g / rx)) with (x + fst g / rx) by lra.
  replace (pn_y P - span_y P / 2 + (y + - (pn_y P - span_y P / 2) + snd g / ry)) with (y + snd g / ry) by lra. reflexivity.
Qed.
Lemma smeared_hits P tr rng ms : tr || negb (pn_real P) = true -> resp_ok (pn_resp P) -> 0 < span_x P -> 0 < span_y P ->
  (forall u, In u ms -> exists x y, mx u = Fin x /\ my u = Fin y) ->
  exists reco gen unc eff,
    panel_hits P tr rng ms = Ok [("reco_xyz", reco); ("gen_xyz", gen); ("unc_xyz", unc); ("eff", eff)]
    /\ forall i u x y, nth_error ms i = Some u -> mx u = Fin x -> my u = Fin y ->
       exists rx ry e, 0 < rx /\ 0 < ry
       /\ (forall inside, get_resolution1 P tr inside (Fin x) (Fin y) = Ok (Fin rx, Fin ry) /\ get_efficiency1 P tr inside (Fin x) (Fin y) = Ok (Fin e))
       /\ nth_error reco i = Some [Fin (x + fst (rng i) / rx); Fin (y + snd (rng i) / ry); Fin (pn_z P)]
       /\ nth_error gen i = Some [Fin x; Fin y; Fin (pn_z P)]
       /\ nth_error unc i = Some [Fin (1 / rx); Fin (1 / ry); Fin 0] /\ nth_error eff i = Some [Fin e].
Proof.
  intros Ht Hr Hx Hy Hms.
  assert (exists h, panel_hits P tr rng ms = Ok h) as [h Eh].
  { unfold panel_hits. destruct (mapM_total (fun iu : nat * muon => hit1 P tr (rng (fst iu)) (mx (snd iu)) (my (snd iu)))
       (combine (seq 0 (len ms)) ms)) as [r Er]; [|cbv beta in Er; rewrite Er; cbn; eauto].
    intros [i u] Hin. apply in_combine_r in Hin. destruct (Hms u Hin) as (x & y & Ex & Ey). cbn [fst snd]. rewrite Ex, Ey.
    destruct (hit1_smeared P tr (rng i) x y Ht Hr Hx Hy) as (_ & _ & E). eauto. }
  pose proof Eh as Eh'. apply panel_hits_inv in Eh' as (rows & -> & Lr & Hrows).
  do 4 eexists. split; [exact Eh|]. intros i u x y Hu Ex Ey. destruct (Hrows i u Hu) as (q & Hq & E).
  rewrite Ex, Ey in E. destruct (hit1_smeared P tr (rng i) x y Ht Hr Hx Hy) as (P1 & P2 & E').
  rewrite E in E'. injection E' as ->. do 3 eexists. split; [exact P1|]. split; [exact P2|]. split; [intros inside; now apply response_eq|].
  rewrite !nth_error_map, Hq. cbn. auto.
Qed.

(* infinitely far away *)
Lemma fraction1_inf resp loc span x : resp_ok resp -> 0 < span -> xisinf x = true -> fraction1 resp loc span x = Ok (Fin 0).
Proof.
  intros Hr Hsp Hx. destruct resp as [|s]; cbn [fraction1].
  - destruct (normal_ratio loc (span / 4) loc) as (a & b & _ & E & _ & Hb & _); [lra|]. rewrite E.
    assert (normal_prob loc (span / 4) x = Ok (Fin 0)) as ->. { unfold normal_prob. destruct (Rleb_spec (span / 4) 0); [lra|]. destruct x; try discriminate; reflexivity. }
    cbn [bind]. rewrite xdiv_fin by lra. do 2 f_equal. unfold Rdiv. ring.
  - cbn in Hr. f_equal. unfold sig_model1.
    assert (xsub (Fin 1) (xmul (xsign (xdiv (xsub x (Fin loc)) (Fin (span / 2)))) (xdiv (xsub x (Fin loc)) (Fin (span / 2)))) = NInf) as ->.
    { destruct x; try discriminate; cbn; destruct (Rlt_dec (span / 2) 0); try lra; cbn; unfold inf_of_sign.
      - destruct (Rlt_dec 0 1); [reflexivity|lra].
      - repeat destruct (Rlt_dec _ _); try lra; reflexivity. }
    rewrite (xdiv_fin 1 s) by lra. replace (xdiv NInf (Fin s)) with NInf by (cbn; destruct (Rlt_dec s 0); [lra|reflexivity]). cbn [xsigmoid]. rewrite xdiv_fin by (apply Rgt_not_eq, sigmoid_pos). f_equal. unfold Rdiv. ring.
Qed.
Lemma resolution1_inf resp nominal loc span x : resp_ok resp -> 0 < span -> xisinf x = true ->
  resolution1 resp nominal loc span x = Ok (Fin (1 / 10000000000)).
Proof.
  intros Hr Hsp Hx. pose proof (fraction1_inf resp loc span x Hr Hsp Hx) as F. destruct resp as [|s]; cbn [resolution1 fraction1] in *.
  - destruct (normal_ratio loc (span / 4) loc) as (a & b & _ & E & _ & Hb & _); [lra|]. rewrite E in *.
    destruct (normal_prob loc (span / 4) x) as [v|] eqn:N; [|discriminate]. unfold normal_prob in N. destruct (Rleb_spec (span / 4) 0); [lra|].
    assert (v = Fin 0) as -> by (destruct x; try discriminate; congruence). cbn [bind xmul]. rewrite xdiv_fin by lra. cbn [xclamp_min]. do 2 f_equal.
    rewrite Rmult_0_r. replace (0 / b) with 0 by (unfold Rdiv; ring). apply Rmax_right. lra.
  - injection F as ->. cbn [xmul xclamp_min]. rewrite Rmult_0_r, Rmax_right by lra. reflexivity.
Qed.
Lemma far_response P tr inside x y :
  tr || negb (pn_real P) = true -> resp_ok (pn_resp P) -> 0 < span_x P -> 0 < span_y P ->
  (xisinf x = true ->
     (exists ry, get_resolution1 P tr inside x (Fin y) = Ok (Fin (1 / 10000000000), Fin ry))
     /\ get_efficiency1 P tr inside x (Fin y) = Ok (Fin (match pn_resp P with Gauss => 0 | Sig _ => 1 / 10000000000 end)))
  /\ (pn_resp P = Gauss -> get_resolution1 P tr inside NaN (Fin y) = Err ValueError /\ get_efficiency1 P tr inside NaN (Fin y) = Err ValueError).
Proof.
  intros Ht Hr Hx Hy. unfold get_resolution1, get_efficiency1. rewrite Ht. split.
  - intros Hi. rewrite resolution1_inf, resolution1_frac, fraction1_inf, fraction1_frac by auto. cbn [bind]. split; [eexists; reflexivity|].
    cbn [xmul]. rewrite Rmult_0_l, Rmult_0_r. destruct (pn_resp P); [reflexivity|]. cbn [xclamp_min]. rewrite Rmax_right by lra. reflexivity.
  - intros HG. rewrite HG. cbn [resolution1 fraction1]. unfold normal_prob. destruct (Rleb_spec (span_x P / 4) 0); [lra|]. split; reflexivity.
Qed.
