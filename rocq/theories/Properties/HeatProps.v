(* Properties C87-C89: heat maps. *)
Require Import Reals Lra Lia.
From Coq Require Import Psatz.
From Verif Require Import Model.Heat Spec.HeatSpec Proofs.HeatP.
Open Scope R_scope.
Open Scope string_scope.
Open Scope list_scope.

(* C87. In training the response follows the density q of the mixture, relative to the largest density m at a mean: the
   resolution is the nominal one times sqrt q, the efficiency the nominal one times q, but never more than nominal. *)
Theorem C87_response :
  forall H m tr inside x y, heat_ok H -> peak (ht_comps H) m -> (tr = true \/ ht_real H = false) ->
  let q := ht_norm H * (density (ht_comps H) x y / m) in
  0 < q <= ht_norm H * INR (List.length (ht_comps H))
  /\ heat_resolution1 H tr inside (Fin x) (Fin y) = Ok (Fin (ht_res H * sqrt q))
  /\ heat_efficiency1 H tr inside (Fin x) (Fin y) = Ok (Fin (ht_eff H * Rmin q 1)).
Proof. exact response_spec. Qed.
Print Assumptions C87_response.
(* C87. There is such an m, and it is unique. *)
Theorem C87_peak :
  forall H, heat_ok H -> exists m, peak (ht_comps H) m /\ 0 < m /\ forall m', peak (ht_comps H) m' -> m' = m.
Proof.
  intros H (_ & _ & _ & N & G). assert (G' : forall c, In c (ht_comps H) -> good c) by (intros c I; apply G; exact I).
  destruct (peak_exists _ N G') as (m & Pk). exists m. split; [exact Pk|]. split; [exact (peak_pos _ m N G' Pk)|]. intros m' Pk'. exact (peak_unique _ _ _ Pk' Pk).
Qed.
Print Assumptions C87_peak.

(* C87. The cost is the price per area times an area between the smallest and the largest one of the components (product of the
   widths); it does not depend on the means, and grows with the square of the widths. *)
Theorem C87_cost :
  forall H lo hi, ht_comps H <> [] -> 0 <= ht_m2 H ->
  (forall c, In c (ht_comps H) -> lo <= fst (snd c) * snd (snd c) <= hi) ->
  ht_m2 H * lo <= heat_cost H <= ht_m2 H * hi
  /\ forall H' k, ht_m2 H' = ht_m2 H -> map snd (ht_comps H') = map (fun c => (k * fst (snd c), k * snd (snd c))) (ht_comps H) ->
     heat_cost H' = k * k * heat_cost H.
Proof. exact cost_spec. Qed.
Print Assumptions C87_cost.

(* two components with means 1 apart *)
Definition two_bells : heat :=
  Heat 10 1 1 (0, 0) (-1, 1) [((-(1/2), 0), (1, 1)); ((1/2, 0), (1, 1))] 1 0 false.
Lemma two_bells_ok : heat_ok two_bells.
Proof.
  unfold heat_ok, two_bells. cbn [ht_res ht_eff ht_norm ht_comps]. repeat (split; [lra|]). split; [discriminate|].
  intros c [<-|[<-|[]]]; cbn [fst snd]; lra.
Qed.
Lemma two_bells_at x : density (ht_comps two_bells) x 0 = exp (- sq (x + 1 / 2) / 2) + exp (- sq (x - 1 / 2) / 2).
Proof.
  unfold density, two_bells, bell. cbn [ht_comps map Rsum]. replace (- sq ((0 - 0) / 1) / 2) with 0 by (unfold sq; field). rewrite exp_0.
  replace ((x - - (1 / 2)) / 1) with (x + 1 / 2) by field. replace ((x - 1 / 2) / 1) with (x - 1 / 2) by field. field.
Qed.
Lemma two_bells_peak : peak (ht_comps two_bells) (1 + exp (- (1 / 2))).
Proof.
  assert (E1 : density (ht_comps two_bells) (-(1/2)) 0 = 1 + exp (- (1 / 2))).
  { rewrite two_bells_at. replace (- sq (- (1 / 2) + 1 / 2) / 2) with 0 by (unfold sq; field). replace (- sq (- (1 / 2) - 1 / 2) / 2) with (- (1 / 2)) by (unfold sq; field). rewrite exp_0. reflexivity. }
  assert (E2 : density (ht_comps two_bells) (1/2) 0 = 1 + exp (- (1 / 2))).
  { rewrite two_bells_at. replace (- sq (1 / 2 - 1 / 2) / 2) with 0 by (unfold sq; field). replace (- sq (1 / 2 + 1 / 2) / 2) with (- (1 / 2)) by (unfold sq; field). rewrite exp_0. lra. }
  split.
  - exists ((-(1/2), 0), (1, 1)). cbn [fst snd]. split; [left; reflexivity|symmetry; exact E1].
  - intros c [<-|[<-|[]]]; cbn [fst snd]; [rewrite E1|rewrite E2]; lra.
Qed.
Example C87_case : heat_ok two_bells /\ peak (ht_comps two_bells) (1 + exp (- (1 / 2))) /\ ht_real two_bells = false.
Proof. split; [exact two_bells_ok|]. split; [exact two_bells_peak|reflexivity]. Qed.

(* C87. The largest density at a mean is not the largest density: between two close means the resolution is better than
   the nominal one although the scale is 1. *)
Theorem C87_nominal_refuted :
  exists H x y r, heat_ok H /\ ht_norm H = 1 /\ heat_resolution1 H true false (Fin x) (Fin y) = Ok (Fin r) /\ ht_res H < r.
Proof.
  exists two_bells, 0, 0. eexists. split; [exact two_bells_ok|]. split; [reflexivity|].
  destruct (C87_response two_bells _ true false 0 0 two_bells_ok two_bells_peak (or_introl eq_refl)) as (_ & E & _). split; [exact E|].
  cbn [ht_res ht_norm two_bells]. rewrite two_bells_at.
  replace (- sq (0 + 1 / 2) / 2) with (- (1 / 8)) by (unfold sq; field). replace (- sq (0 - 1 / 2) / 2) with (- (1 / 8)) by (unfold sq; field).
  set (t := exp (- (1 / 8))).
  assert (T4 : exp (- (1 / 2)) = t * t * (t * t)) by (unfold t; rewrite <- !exp_plus; f_equal; field).
  assert (T1 : t < 1) by (apply Rlt_le_trans with (exp 0); [apply exp_increasing; lra|rewrite exp_0; lra]).
  assert (T0 : 7 / 8 <= t) by (unfold t; pose proof (exp_ineq1_le (- (1 / 8))); lra).
  rewrite T4.
  assert (Q : 1 < 1 * ((t + t) / (1 + t * t * (t * t)))).
  { assert (D : 0 < 1 + t * t * (t * t)) by nra. rewrite Rmult_1_l. apply Rmult_lt_reg_r with (1 + t * t * (t * t)); [exact D|].
    replace ((t + t) / (1 + t * t * (t * t)) * (1 + t * t * (t * t))) with (t + t) by (field; lra). assert (0 < (1 - t) * (t * t * t + t * t + t - 1)) by (apply Rmult_lt_0_compat; nra). nra. }
  assert (1 < sqrt (1 * ((t + t) / (1 + t * t * (t * t))))) by (rewrite <- sqrt_1 at 1; apply sqrt_lt_1_alt; lra). lra.
Qed.
Print Assumptions C87_nominal_refuted.

(* C87. Once a width is not positive every response is not a number. *)
Theorem C87_bad_width :
  forall H inside x y, (exists c, In c (ht_comps H) /\ (fst (snd c) <= 0 \/ snd (snd c) <= 0)) ->
  heat_resolution1 H true inside (Fin x) (Fin y) = Ok NaN.
Proof.
  intros H inside x y (c & I & Hc). unfold heat_resolution1. cbn [orb]. unfold gmm1. cbn [xisnan orb].
  assert (S0 : forall l, In NaN l -> fold_right xadd (Fin 0) l = NaN).
  { induction l as [|a l IH]; intros J; [destruct J|]. cbn [fold_right]. destruct J as [-> | J]; [reflexivity|]. rewrite (IH J). destruct a; reflexivity. }
  assert (M : forall a b, mix_log (ht_comps H) (Fin a) (Fin b) = NaN).
  { intros a b. unfold mix_log. rewrite S0; [reflexivity|]. apply in_map_iff. exists c. split; [|exact I].
    unfold normal_log. destruct Hc as [Hc|Hc].
    - rewrite (proj2 (Rleb_true _ _) Hc). destruct (Rleb (snd (snd c)) 0); reflexivity.
    - rewrite (proj2 (Rleb_true (snd (snd c)) 0) Hc). destruct (Rleb (fst (snd c)) 0); reflexivity. }
  assert (E : exists t, xmaximum (map (fun c0 : comp => mix_log (ht_comps H) (Fin (fst (fst c0))) (Fin (snd (fst c0)))) (ht_comps H)) = Ok t).
  { destruct (ht_comps H); [destruct I|]. cbn [map xmaximum]. eexists. reflexivity. }
  destruct E as (t & ->). cbn [bind]. rewrite M. reflexivity.
Qed.
Print Assumptions C87_bad_width.

(* C88. Conforming a heat map centred at (f, f) puts the means within 1.2 delta of f and into the layer, limits the
   widths, the scale and the height, and changes nothing else. *)
Theorem C88_conform :
  forall lx ly z size eps H f, ht_fix H = (f, f) -> 0 <= f <= lx -> 0 <= ht_delta H -> 0 <= ly -> 0 <= eps -> 2 * eps <= size ->
  same_frame H (heat_conform lx ly z size eps H)
  /\ heat_inside (Rmax 0 (f - 6 / 5 * ht_delta H)) (Rmin lx (f + 6 / 5 * ht_delta H)) ly (z - size + eps) (z - eps) (heat_conform lx ly z size eps H).
Proof. exact conform_inside. Qed.
Print Assumptions C88_conform.
(* C88. Heat maps that are within the bounds stay as they are. *)
Theorem C88_fixed :
  forall lx ly z size eps H f, ht_fix H = (f, f) ->
  heat_inside (Rmax 0 (f - 6 / 5 * ht_delta H)) (Rmin lx (f + 6 / 5 * ht_delta H)) ly (z - size + eps) (z - eps) H ->
  heat_conform lx ly z size eps H = H.
Proof. exact conform_fixed. Qed.
Print Assumptions C88_fixed.
Definition small_map : heat := Heat 10 1 1 (5, 5) (-(1/2), 1/2) [((5, 9/2), (1/2, 1/4))] 1 (9/10) false.
Example C88_case : ht_fix small_map = (5, 5) /\ ht_delta small_map = 1
  /\ heat_inside (Rmax 0 (5 - 6 / 5 * ht_delta small_map)) (Rmin 10 (5 + 6 / 5 * ht_delta small_map)) 10 (1 - 1 + 1 / 1000) (1 - 1 / 1000) small_map.
Proof.
  split; [reflexivity|]. assert (D : ht_delta small_map = 1) by (unfold ht_delta, small_map; cbn; lra). split; [exact D|]. rewrite D.
  rewrite Rmax_right, Rmin_right by lra. unfold heat_inside, small_map. cbn [ht_comps ht_norm ht_z]. split; [|lra]. intros c [<-|[]]. lra.
Qed.

(* C88. The upper bound is taken from y and the lower one from x: a heat map at (5, 1) in a layer of 10 by 10, within all
   bounds, has its components moved out of its range. *)
Theorem C88_bounds_refuted :
  exists H lx ly z size eps c, heat_ok H /\ 0 < fst (ht_fix H) < lx /\ 0 < snd (ht_fix H) < ly
  /\ (forall d, In d (ht_comps H) -> fst d = ht_fix H)
  /\ In c (ht_comps (heat_conform lx ly z size eps H)) /\ Rabs (fst (fst c) - fst (ht_fix H)) > 2 * ht_delta H.
Proof.
  exists (Heat 10 1 1 (5, 1) (-(1/2), 1/2) [((5, 1), (1/2, 1/2))] 1 (1/2) false), 10, 10, 1, 1, 0.
  eexists. cbn [ht_fix ht_comps fst snd]. split.
  { unfold heat_ok. cbn [ht_res ht_eff ht_norm ht_comps]. repeat (split; [lra|]). split; [discriminate|]. intros c [<-|[]]; cbn [fst snd]; lra. }
  split; [lra|]. split; [lra|]. split; [intros d [<-|[]]; reflexivity|].
  unfold heat_conform, heat_clamp. cbn [ht_comps map]. split; [left; reflexivity|]. cbn [fst snd ht_fix]. unfold ht_delta. cbn [ht_span fst snd]. unfold range_mult.
  rewrite (Rmax_right 0 _) by lra. rewrite (Rmin_right 10 _) by lra. unfold Rclamp. rewrite Rmin_right by (apply Rle_trans with 5; [lra|apply Rmax_l]).
  rewrite Rabs_left by lra. lra.
Qed.
Print Assumptions C88_bounds_refuted.
(* C88. A width that an update made negative becomes 0, and the conformed heat map responds with NaN. *)
Theorem C88_width_refuted :
  exists H lx ly z size eps, forall inside x y,
  heat_resolution1 (heat_conform lx ly z size eps H) true inside (Fin x) (Fin y) = Ok NaN
  /\ heat_inside 0 lx ly (z - size) z (heat_conform lx ly z size eps H).
Proof.
  exists (Heat 10 1 1 (1, 1) (-1, 1) [((1, 1), (-1, 1))] 1 (1/2) false), 2, 2, 1, 1, 0. intros inside x y. split.
  - apply C87_bad_width. unfold heat_conform, heat_clamp. cbn [ht_comps map]. eexists. split; [left; reflexivity|]. left. cbn [fst snd].
    unfold range_mult, Rclamp. rewrite Rmax_right by lra. rewrite Rmin_left by lra. lra.
  - destruct (conform_inside 2 2 1 1 0 (Heat 10 1 1 (1, 1) (-1, 1) [((1, 1), (-1, 1))] 1 (1/2) false) 1) as (_ & A & B & C); try reflexivity; try lra.
    { unfold ht_delta. cbn. lra. }
    unfold heat_inside. split; [|lra]. intros c I. specialize (A c I). destruct c as [[mx my] [sx sy]]. unfold ht_delta in A. cbn [ht_span fst snd] in A.
    rewrite (Rmax_left 0 _), (Rmin_left 2 _) in A by lra. lra.
Qed.
Print Assumptions C88_width_refuted.

(* C89. New heat maps: means within half the extent of the requested position, widths between a fifth of the extent and
   the extent, where the extent is the difference of the two numbers given as span. *)
Theorem C89_new :
  forall res eff xyz a b m2 real draws, 0 < res -> 0 < eff -> a <> b -> draws <> [] ->
  (forall d, In d draws -> let '((u1, u2), (v1, v2)) := d in 0 <= u1 < 1 /\ 0 <= u2 < 1 /\ 0 <= v1 < 1 /\ 0 <= v2 < 1) ->
  exists H, new_heat res eff xyz (a, b) m2 false real draws = Ok H /\ heat_ok H
  /\ ht_res H = res /\ ht_eff H = eff /\ ht_m2 H = m2 /\ ht_fix H = fst xyz /\ ht_z H = snd xyz /\ ht_norm H = 1 /\ ht_delta H = Rabs (b - a)
  /\ List.length (ht_comps H) = List.length draws
  /\ forall c, In c (ht_comps H) -> let '((mx, my), (sx, sy)) := c in
       Rabs (mx - fst (fst xyz)) <= Rabs (b - a) / 2 /\ Rabs (my - snd (fst xyz)) <= Rabs (b - a) / 2
       /\ Rabs (b - a) / 5 <= sx <= Rabs (b - a) /\ Rabs (b - a) / 5 <= sy <= Rabs (b - a).
Proof. exact new_ok. Qed.
Print Assumptions C89_new.
(* C89. A heat map of equal spans in x and y cannot be made: ValueError, whatever the draws. *)
Theorem C89_square :
  forall res eff xyz a m2 budget real draws, draws <> [] -> new_heat res eff xyz (a, a) m2 budget real draws = Err ValueError.
Proof. exact new_square. Qed.
Print Assumptions C89_square.
Theorem C89_square_refuted :
  exists res eff xyz a m2 draws, 0 < res /\ 0 < eff /\ 0 < a /\ draws <> [] /\ new_heat res eff xyz (a, a) m2 false false draws = Err ValueError.
Proof. exists 10, 1, (0, 0, 0), 1, 1, [((0, 0), (0, 0))]. repeat (split; [lra|]). split; [discriminate|]. apply new_square. discriminate. Qed.
Print Assumptions C89_square_refuted.

(* C89. Training hits: true position and height of the map, recorded position off by the draw over the resolution,
   uncertainty one over the resolution, efficiency positive and not above the nominal one. *)
Theorem C89_hits :
  forall H m tr g x y, heat_ok H -> peak (ht_comps H) m -> (tr = true \/ ht_real H = false) ->
  let r := ht_res H * sqrt (ht_norm H * (density (ht_comps H) x y / m)) in
  0 < r /\ exists e, heat_hit1 H tr g (Fin x) (Fin y)
    = Ok ([Fin (x + fst g / r); Fin (y + snd g / r); Fin (ht_z H)], [Fin x; Fin y; Fin (ht_z H)], [Fin (1 / r); Fin (1 / r); Fin 0], [Fin e])
    /\ 0 < e <= ht_eff H.
Proof. exact hit_training. Qed.
Print Assumptions C89_hits.
(* C89. One row per muon in every tensor: row i is what the i-th muon and its draw give. *)
Theorem C89_rows :
  forall H tr rng ms d, heat_hits H tr rng ms = Ok d ->
  exists reco gen unc eff, d = [("reco_xyz", reco); ("gen_xyz", gen); ("unc_xyz", unc); ("eff", eff)]
  /\ List.length reco = List.length ms /\ List.length gen = List.length ms /\ List.length unc = List.length ms /\ List.length eff = List.length ms
  /\ forall i m, nth_error ms i = Some m -> exists a b u e, heat_hit1 H tr (rng i) (mx m) (my m) = Ok (a, b, u, e)
       /\ nth_error reco i = Some a /\ nth_error gen i = Some b /\ nth_error unc i = Some u /\ nth_error eff i = Some e.
Proof.
  intros H tr rng ms d E. unfold heat_hits in E.
  match type of E with bind ?e _ = _ => destruct e as [rows|] eqn:Er; [|discriminate E] end. cbn [bind] in E. injection E as <-.
  assert (L : List.length rows = List.length ms) by (rewrite (mapM_len _ _ _ Er), combine_length, seq_length; apply Nat.min_id).
  eexists _, _, _, _. split; [reflexivity|]. rewrite !map_length. do 4 (split; [exact L|]). intros i m Hm.
  destruct (mapM_nth _ _ _ Er i (i, m)) as ([[[a b] u] e] & E1 & E2).
  { assert (HL : (i < List.length ms)%nat) by (apply nth_error_Some; congruence). clear - Hm HL.
    assert (G : forall (l : list muon) k i, nth_error l i = Some m -> nth_error (combine (seq k (List.length l)) l) i = Some (k + i, m)%nat).
    { induction l as [|x l IH]; intros k [|j] Hj; cbn in *; try discriminate; [injection Hj as ->; now rewrite Nat.add_0_r|]. rewrite (IH (S k) j Hj). f_equal. f_equal. lia. }
    exact (G ms 0%nat i Hm). }
  cbn [fst snd] in E1. exists a, b, u, e. split; [exact E1|]. rewrite !nth_error_map, E2. cbn. auto.
Qed.
Print Assumptions C89_rows.
(* C89. In training a muon without a position (NaN in x or in y) makes the recording of the whole batch fail with ValueError. *)
Theorem C89_nan :
  forall H tr rng ms m, ht_comps H <> [] -> (tr = true \/ ht_real H = false) -> In m ms -> mx m = NaN \/ my m = NaN ->
  heat_hits H tr rng ms = Err ValueError.
Proof.
  intros H tr rng ms m NE Tr Hm Hn. unfold heat_hits.
  assert (C : tr || negb (ht_real H) = true) by (destruct Tr as [-> | ->]; [reflexivity|destruct tr; reflexivity]).
  assert (G : forall (u : nat * muon), match heat_hit1 H tr (rng (fst u)) (mx (snd u)) (my (snd u)) with Ok _ => ~ (mx (snd u) = NaN \/ my (snd u) = NaN) | Err e => e = ValueError end).
  { intros [k [x y z t p f]]. cbn [fst snd mx my]. unfold heat_hit1, heat_resolution1, heat_efficiency1. rewrite C. cbn zeta. unfold gmm1.
    destruct (xisnan x || xisnan y) eqn:Nn; [reflexivity|]. destruct (ht_comps H) as [|c cs]; [congruence|]. cbn [map xmaximum bind].
    intros [-> | ->]; cbn [xisnan] in Nn; [discriminate|]. destruct x; discriminate. }
  assert (I : In m (map snd (combine (seq 0 (List.length ms)) ms))).
  { assert (Q : forall (l : list muon) k, map snd (combine (seq k (List.length l)) l) = l) by (induction l as [|x l IH]; intros k; cbn; [reflexivity|now rewrite IH]). now rewrite Q. }
  revert I. generalize (combine (seq 0 (List.length ms)) ms) as l. induction l as [|u l IH]; [intros []|]. intros I. cbn [mapM]. specialize (G u).
  destruct (heat_hit1 H tr (rng (fst u)) (mx (snd u)) (my (snd u))) as [q|e]; [|now subst e].
  cbn [map In] in I. destruct I as [I|I]; [exfalso; apply G; rewrite I; exact Hn|]. cbn [bind].
  specialize (IH I). destruct (mapM (fun iu : nat * muon => heat_hit1 H tr (rng (fst iu)) (mx (snd iu)) (my (snd iu))) l); [discriminate IH|exact IH].
Qed.
Print Assumptions C89_nan.

(* C89. With realistic validation all muons over a heat map whose span starts at or below 0 get the same recorded x. *)
Theorem C89_realistic_x :
  forall H g x y, ht_real H = true -> fst (ht_span H) <= 0 -> 0 < ht_res H ->
  Rabs (x - fst (ht_fix H)) < 6 / 5 * ht_delta H -> Rabs (y - snd (ht_fix H)) < 6 / 5 * ht_delta H ->
  exists ry gen unc eff, heat_hit1 H false g (Fin x) (Fin y)
    = Ok ([Fin (fst (ht_fix H) - ht_delta H / 2 + fst (ht_span H)); ry; Fin (ht_z H)], gen, unc, eff).
Proof.
  intros H g x y Er Hs Hr Bx By. unfold heat_hit1. apply Rabs_def2 in Bx, By.
  match goal with |- context [in_xy ?a ?b ?c] => assert (Ei : in_xy a b c = true) end.
  { unfold in_xy. cbn [fst snd mx my xle xlt]. unfold range_mult. rewrite !(proj2 (Rleb_true _ _)), !(proj2 (Rltb_true _ _)) by lra. reflexivity. }
  rewrite Ei. unfold heat_resolution1, heat_efficiency1. rewrite Er. cbn [orb negb bind andb]. do 4 eexists.
  rewrite !xdiv_fin by lra. cbn [xadd xsub xopp xclamp].
  assert (C : forall v, Rclamp 0 (fst (ht_span H)) v = fst (ht_span H)) by (intros v; unfold Rclamp; apply Rmin_right; apply Rle_trans with 0; [lra|apply Rmax_r]).
  rewrite C. reflexivity.
Qed.
Print Assumptions C89_realistic_x.
Theorem C89_realistic_refuted :
  exists H x1 x2 y p1 p2 r1 r2 g1 g2 u1 u2 e1 e2, heat_ok H /\ x1 < x2
  /\ heat_hit1 H false (0, 0) (Fin x1) (Fin y) = Ok (p1 :: r1, g1, u1, e1) /\ heat_hit1 H false (0, 0) (Fin x2) (Fin y) = Ok (p2 :: r2, g2, u2, e2) /\ p1 = p2.
Proof.
  set (H := Heat 10 1 1 (1, 1) (-(1/2), 1/2) [((1, 1), (1, 1))] 1 0 true).
  assert (D : ht_delta H = 1) by (unfold ht_delta, H; cbn; lra).
  destruct (C89_realistic_x H (0, 0) (1/2) 1) as (a1 & g1 & u1 & e1 & E1); [reflexivity|cbn; lra|cbn; lra|rewrite D; cbn [ht_fix H fst]; apply Rabs_def1; lra|rewrite D; cbn [ht_fix H snd]; apply Rabs_def1; lra|].
  destruct (C89_realistic_x H (0, 0) (3/2) 1) as (a2 & g2 & u2 & e2 & E2); [reflexivity|cbn; lra|cbn; lra|rewrite D; cbn [ht_fix H fst]; apply Rabs_def1; lra|rewrite D; cbn [ht_fix H snd]; apply Rabs_def1; lra|].
  exists H, (1/2), (3/2), 1. do 10 eexists. split.
  { unfold heat_ok, H. cbn [ht_res ht_eff ht_norm ht_comps]. repeat (split; [lra|]). split; [discriminate|]. intros c [<-|[]]; cbn [fst snd]; lra. }
  split; [lra|]. split; [exact E1|]. split; [exact E2|reflexivity].
Qed.
Print Assumptions C89_realistic_refuted.
