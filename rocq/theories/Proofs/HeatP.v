(* Heat maps: response, hits, conforming. *)
Require Import Reals Lra Lia.
From Coq Require Import Psatz.
From Verif Require Import Model.Heat Spec.HeatSpec.
Open Scope R_scope.
Open Scope string_scope.
Open Scope list_scope.

Notation comp := ((R * R) * (R * R))%type.
Definition good (c : comp) : Prop := 0 < fst (snd c) /\ 0 < snd (snd c).

Lemma bell_pos c x y : good c -> 0 < bell c x y.
Proof. destruct c as [[mx my] [sx sy]]. intros [H1 H2]. cbn [fst snd] in *. unfold bell. apply Rdiv_lt_0_compat; [apply Rmult_lt_0_compat; apply exp_pos|nra]. Qed.
Lemma bell_top c x y : good c -> bell c x y <= bell c (fst (fst c)) (snd (fst c)).
Proof.
  destruct c as [[mx my] [sx sy]]. intros [H1 H2]. cbn [fst snd] in *. unfold bell.
  replace (- sq ((mx - mx) / sx) / 2) with 0 by (unfold sq; field; lra). replace (- sq ((my - my) / sy) / 2) with 0 by (unfold sq; field; lra).
  rewrite exp_0. apply Rmult_le_compat_r; [left; apply Rinv_0_lt_compat; nra|].
  assert (E : forall t, exp (- sq t / 2) <= 1).
  { intros t. rewrite <- exp_0. destruct (Req_dec t 0) as [->|N]; [right; f_equal; unfold sq; field|]. left. apply exp_increasing. assert (0 < sq t) by (unfold sq; nra). lra. }
  apply Rmult_le_compat; try (left; apply exp_pos); apply E.
Qed.
Lemma density_pos cs x y : cs <> [] -> (forall c, In c cs -> good c) -> 0 < density cs x y.
Proof.
  intros N G. apply Rsum_pos; [destruct cs; [congruence|discriminate]|]. intros v I. apply in_map_iff in I as (c & <- & I). apply bell_pos, G, I.
Qed.

Lemma two_pi_pos : 0 < sqrt (2 * PI).
Proof. apply sqrt_lt_R0. pose proof PI_RGT_0. lra. Qed.
Lemma normal_log_exp loc s x : 0 < s ->
  exists l, normal_log loc s (Fin x) = Fin l /\ exp l = exp (- sq ((x - loc) / s) / 2) / s / sqrt (2 * PI).
Proof.
  intros Hs. unfold normal_log. destruct (Rleb_spec s 0); [lra|]. eexists. split; [reflexivity|]. pose proof two_pi_pos.
  unfold Rminus at 1 2. rewrite !exp_plus, !exp_Ropp, !exp_ln by assumption. unfold Rdiv. do 2 f_equal. f_equal. unfold sq. field. lra.
Qed.
Lemma xsum_fin (l : list R) : fold_right xadd (Fin 0) (map Fin l) = Fin (Rsum l).
Proof. induction l as [|a l IH]; [reflexivity|]. cbn [map fold_right Rsum]. rewrite IH. reflexivity. Qed.
Lemma xlog_fin x : 0 < x -> xlog (Fin x) = Fin (ln x).
Proof. intros H. unfold xlog. repeat match goal with |- context [if ?d then _ else _] => destruct d; try lra end; reflexivity. Qed.

(* the common factor of all densities *)
Definition factor (cs : list comp) : R := / (sqrt (2 * PI) * sqrt (2 * PI)) * / INR (List.length cs).
Lemma factor_pos cs : cs <> [] -> 0 < factor cs.
Proof.
  intros N. unfold factor. pose proof two_pi_pos. apply Rmult_lt_0_compat; apply Rinv_0_lt_compat; [nra|]. apply lt_0_INR. destruct cs; [congruence|simpl; lia].
Qed.
Lemma mix_log_fin cs x y : cs <> [] -> (forall c, In c cs -> good c) ->
  mix_log cs (Fin x) (Fin y) = Fin (ln (density cs x y * factor cs)).
Proof.
  intros N G. unfold mix_log. pose proof two_pi_pos as P2.
  assert (Pn : 0 < / INR (List.length cs)) by (apply Rinv_0_lt_compat, lt_0_INR; destruct cs; [congruence|simpl; lia]).
  assert (E : map (fun c : comp => xexp (xadd (xadd (normal_log (fst (fst c)) (fst (snd c)) (Fin x)) (normal_log (snd (fst c)) (snd (snd c)) (Fin y)))
                       (Fin (ln (/ INR (List.length cs)))))) cs = map Fin (map (fun c => factor cs * bell c x y) cs)).
  { rewrite map_map. apply map_ext_in. intros c I. destruct (G c I) as [G1 G2]. destruct c as [[mx my] [sx sy]]. cbn [fst snd] in *.
    destruct (normal_log_exp mx sx x G1) as (l1 & -> & E1). destruct (normal_log_exp my sy y G2) as (l2 & -> & E2).
    cbn [xadd xexp]. rewrite !exp_plus, E1, E2, exp_ln by exact Pn. f_equal. unfold factor, bell. field. pose proof (Rinv_neq_0_compat (INR (List.length cs))).
    repeat split; try lra. intro Z. rewrite Z, Rinv_0 in Pn. lra. }
  rewrite E, xsum_fin, Rsum_map_mult. fold (density cs x y). rewrite Rmult_comm. apply xlog_fin.
  apply Rmult_lt_0_compat; [apply density_pos; auto|apply factor_pos; auto].
Qed.

Lemma xmax_fin a l : exists m, fold_left xmax2 (map Fin l) (Fin a) = Fin m /\ (m = a \/ In m l) /\ a <= m /\ forall x, In x l -> x <= m.
Proof.
  revert a. induction l as [|b l IH]; intros a; [exists a; cbn; split; [reflexivity|]; split; [left; reflexivity|]; split; [lra|intros ? []]|].
  cbn [map fold_left]. unfold xmax2 at 2. cbn [xle]. destruct (Rleb_spec a b).
  - destruct (IH b) as (m & E & C & L & U). exists m. split; [exact E|]. split; [destruct C as [-> | C]; [right; left; reflexivity|right; right; exact C]|].
    split; [lra|]. intros x [<-|I]; auto.
  - destruct (IH a) as (m & E & C & L & U). exists m. split; [exact E|]. split; [destruct C as [-> | C]; [left; reflexivity|right; right; exact C]|].
    split; [lra|]. intros x [<-|I]; [lra|auto].
Qed.
Lemma xmaximum_fin l : l <> [] -> exists m, xmaximum (map Fin l) = Ok (Fin m) /\ In m l /\ forall x, In x l -> x <= m.
Proof.
  intros N. destruct l as [|a l]; [congruence|]. destruct (xmax_fin a l) as (m & E & C & L & U). exists m. cbn [map xmaximum]. rewrite E. split; [reflexivity|].
  split; [destruct C as [-> | C]; [left; reflexivity|right; exact C]|]. intros x [<-|I]; auto.
Qed.

Lemma ln_le_inv' a b : 0 < a -> 0 < b -> ln a <= ln b -> a <= b.
Proof. intros Ha Hb [H|H]; [left; apply ln_lt_inv; auto|right; apply ln_inv; auto]. Qed.

Lemma peak_exists cs : cs <> [] -> (forall c, In c cs -> good c) -> exists m, peak cs m.
Proof.
  intros N G. destruct (xmaximum_fin (map (fun c : comp => density cs (fst (fst c)) (snd (fst c))) cs)) as (m & _ & I & U); [destruct cs; [congruence|discriminate]|].
  apply in_map_iff in I as (c & E & I). exists m. split; [exists c; auto|]. intros c' I'. apply U. apply in_map_iff. exists c'. auto.
Qed.
Lemma peak_unique cs m m' : peak cs m -> peak cs m' -> m = m'.
Proof. intros [(c & I & E) U] [(c' & I' & E') U']. apply Rle_antisym; [rewrite E; apply U'; exact I|rewrite E'; apply U; exact I']. Qed.
Lemma peak_pos cs m : cs <> [] -> (forall c, In c cs -> good c) -> peak cs m -> 0 < m.
Proof. intros N G [(c & I & ->) _]. apply density_pos; auto. Qed.

Lemma gmm1_fin H m x y : heat_ok H -> peak (ht_comps H) m -> gmm1 H (Fin x) (Fin y) = Ok (Fin (sqrt (ht_norm H * (density (ht_comps H) x y / m)))).
Proof.
  intros (_ & _ & Hn & N & G) Pk. unfold gmm1. cbn [xisnan orb]. set (cs := ht_comps H) in *.
  assert (G' : forall c, In c cs -> good c) by (intros c I; apply G; exact I).
  assert (E : map (fun c : comp => mix_log cs (Fin (fst (fst c))) (Fin (snd (fst c)))) cs
      = map Fin (map (fun c : comp => ln (density cs (fst (fst c)) (snd (fst c)) * factor cs)) cs)).
  { rewrite map_map. apply map_ext. intros c. apply mix_log_fin; auto. }
  rewrite E. clear E. pose proof (factor_pos cs N) as Fp.
  destruct (xmaximum_fin (map (fun c : comp => ln (density cs (fst (fst c)) (snd (fst c)) * factor cs)) cs)) as (t & -> & I & U); [destruct cs; [congruence|discriminate]|].
  cbn [bind]. apply in_map_iff in I as (c & Et & I). rewrite mix_log_fin by auto.
  assert (Em : m = density cs (fst (fst c)) (snd (fst c))).
  { apply (peak_unique cs); [exact Pk|]. split; [exists c; auto|]. intros c' I'.
    assert (ln (density cs (fst (fst c')) (snd (fst c')) * factor cs) <= t) as L by (apply U; apply in_map_iff; exists c'; auto).
    rewrite <- Et in L. apply ln_le_inv' in L; [|apply Rmult_lt_0_compat; [apply density_pos; auto|auto]..].
    apply Rmult_le_reg_r with (factor cs); auto. }
  cbn [xsub xadd xopp xexp xmul xsqrt]. rewrite <- Et, <- Em. pose proof (density_pos cs x y N G') as Dp. pose proof (peak_pos cs m N G' Pk) as Mp.
  assert (Ee : exp (ln (density cs x y * factor cs) - ln (m * factor cs)) = density cs x y / m).
  { unfold Rminus. rewrite exp_plus, exp_Ropp, !exp_ln by (apply Rmult_lt_0_compat; lra). field. lra. }
  unfold Rminus in Ee. rewrite Ee. destruct (Rlt_dec (ht_norm H * (density cs x y / m)) 0) as [L|L]; [|reflexivity].
  exfalso. assert (0 < ht_norm H * (density cs x y / m)) by (apply Rmult_lt_0_compat; [exact Hn|apply Rdiv_lt_0_compat; lra]). lra.
Qed.

(* the density exceeds its largest value at a mean at most by the number of components *)
Lemma density_bound cs m x y : cs <> [] -> (forall c, In c cs -> good c) -> peak cs m -> density cs x y <= INR (List.length cs) * m.
Proof.
  intros N G [_ U]. rewrite <- (Rsum_const m cs). apply Rsum_map_le. intros c I. apply Rle_trans with (1 := bell_top c x y (G c I)).
  apply Rle_trans with (density cs (fst (fst c)) (snd (fst c))); [|apply U; exact I].
  unfold density. clear - G I. induction cs as [|d cs IH]; [destruct I|]. cbn [map Rsum].
  assert (0 <= Rsum (map (fun c0 => bell c0 (fst (fst c)) (snd (fst c))) cs)).
  { apply Rsum_nonneg. intros v J. apply in_map_iff in J as (c0 & <- & J). left. apply bell_pos, G. right. exact J. }
  destruct I as [-> | I]; [lra|].
  assert (bell c (fst (fst c)) (snd (fst c)) <= Rsum (map (fun c0 => bell c0 (fst (fst c)) (snd (fst c))) cs)) by (apply IH; [intros; apply G; right; auto|exact I]).
  pose proof (bell_pos d (fst (fst c)) (snd (fst c)) (G d (or_introl eq_refl))). lra.
Qed.

Lemma min_square r : 0 <= r -> Rmin (sqrt r) 1 * Rmin (sqrt r) 1 = Rmin r 1.
Proof.
  intros H. pose proof (sqrt_pos r) as P. pose proof (sqrt_sqrt r H) as S2. unfold Rmin.
  destruct (Rle_dec (sqrt r) 1); destruct (Rle_dec r 1); try lra; nra.
Qed.

Lemma response_spec H m tr inside x y : heat_ok H -> peak (ht_comps H) m -> (tr = true \/ ht_real H = false) ->
  let q := ht_norm H * (density (ht_comps H) x y / m) in
  0 < q <= ht_norm H * INR (List.length (ht_comps H))
  /\ heat_resolution1 H tr inside (Fin x) (Fin y) = Ok (Fin (ht_res H * sqrt q))
  /\ heat_efficiency1 H tr inside (Fin x) (Fin y) = Ok (Fin (ht_eff H * Rmin q 1)).
Proof.
  intros OK Pk T q. pose proof OK as (Hr & He & Hn & N & G).
  assert (G' : forall c, In c (ht_comps H) -> good c) by (intros c I; apply G; exact I).
  pose proof (density_pos _ x y N G') as Dp. pose proof (peak_pos _ m N G' Pk) as Mp. pose proof (density_bound _ m x y N G' Pk) as B.
  assert (Tb : tr || negb (ht_real H) = true) by (destruct T as [-> | ->]; [reflexivity|destruct tr; reflexivity]).
  assert (Q : 0 < q). { apply Rmult_lt_0_compat; [exact Hn|apply Rdiv_lt_0_compat; lra]. }
  split; [split; [exact Q|]|].
  { apply Rmult_le_compat_l; [lra|]. apply Rmult_le_reg_r with m; [exact Mp|]. unfold Rdiv. rewrite Rmult_assoc, Rinv_l by lra. lra. }
  unfold heat_resolution1, heat_efficiency1. rewrite Tb, (gmm1_fin H m x y OK Pk). cbn [bind xmul xclamp_max]. fold q.
  split; [reflexivity|]. rewrite min_square by lra. reflexivity.
Qed.

(* hits *)
Lemma hit_training H m tr g x y : heat_ok H -> peak (ht_comps H) m -> (tr = true \/ ht_real H = false) ->
  let r := ht_res H * sqrt (ht_norm H * (density (ht_comps H) x y / m)) in
  0 < r /\ exists e, heat_hit1 H tr g (Fin x) (Fin y)
    = Ok ([Fin (x + fst g / r); Fin (y + snd g / r); Fin (ht_z H)], [Fin x; Fin y; Fin (ht_z H)], [Fin (1 / r); Fin (1 / r); Fin 0], [Fin e])
    /\ 0 < e <= ht_eff H.
Proof.
  intros OK Pk T r. unfold heat_hit1.
  match goal with |- context [in_xy ?a ?b ?c] => generalize (in_xy a b c) end. intros inside.
  destruct (response_spec H m tr inside x y OK Pk T) as ((Q1 & Q2) & E1 & E2). pose proof OK as (Hr & He & Hn & N & G).
  fold r in E1. assert (R0 : 0 < r) by (apply Rmult_lt_0_compat; [exact Hr|apply sqrt_lt_R0; exact Q1]).
  split; [exact R0|]. rewrite E1, E2. cbn [bind].
  assert (Tb : negb tr && ht_real H && inside = false) by (destruct T as [-> | ->]; [reflexivity|destruct tr; reflexivity]).
  rewrite Tb. rewrite !xdiv_fin by lra. cbn [xadd xsub xopp].
  eexists. split; [|split].
  - match goal with |- Ok ([Fin ?a; Fin ?b; _], _, _, [Fin ?e]) = _ => replace a with (x + fst g / r) by ring; replace b with (y + snd g / r) by ring end. reflexivity.
  - apply Rmult_lt_0_compat; [exact He|]. apply Rmin_glb_lt; [exact Q1|lra].
  - rewrite <- (Rmult_1_r (ht_eff H)) at 2. apply Rmult_le_compat_l; [lra|apply Rmin_r].
Qed.

(* conforming *)
Lemma conform_inside lx ly z size eps H f : ht_fix H = (f, f) -> 0 <= f <= lx -> 0 <= ht_delta H -> 0 <= ly -> 0 <= eps -> 2 * eps <= size ->
  same_frame H (heat_conform lx ly z size eps H)
  /\ heat_inside (Rmax 0 (f - 6 / 5 * ht_delta H)) (Rmin lx (f + 6 / 5 * ht_delta H)) ly (z - size + eps) (z - eps) (heat_conform lx ly z size eps H).
Proof.
  intros Ef Hf Hd Hl He Hs. unfold heat_conform. rewrite Ef. cbn [fst snd]. fold range_mult. set (lo := Rmax 0 _). set (hi := Rmin lx _).
  assert (L : lo <= hi).
  { unfold lo, hi, range_mult. apply Rmax_case; apply Rmin_case; lra. }
  unfold heat_clamp. split.
  - unfold same_frame. cbn [ht_res ht_eff ht_m2 ht_fix ht_span ht_real ht_comps]. rewrite map_length. repeat split; reflexivity.
  - unfold heat_inside. cbn [ht_comps ht_norm ht_z]. split.
    + intros c I. apply in_map_iff in I as ([[mx my] [sx sy]] & <- & _). cbn [fst snd]. unfold range_mult.
      split; [apply Rclamp_bounds; exact L|]. split; [apply Rclamp_bounds; exact L|].
      assert (0 / (6 / 5) <= 6 / 5 * ly) by lra.
      split; match goal with |- context [Rclamp ?a ?b ?s] => pose proof (Rclamp_bounds a b s) end; lra.
    + split; apply Rclamp_bounds; lra.
Qed.
Lemma conform_fixed lx ly z size eps H f : ht_fix H = (f, f) ->
  heat_inside (Rmax 0 (f - 6 / 5 * ht_delta H)) (Rmin lx (f + 6 / 5 * ht_delta H)) ly (z - size + eps) (z - eps) H ->
  heat_conform lx ly z size eps H = H.
Proof.
  intros Ef (I1 & I2 & I3). unfold heat_conform. rewrite Ef. cbn [fst snd]. fold range_mult in I1. unfold heat_clamp.
  rewrite (Rclamp_id _ _ (ht_norm H)) by lra. rewrite (Rclamp_id _ _ (ht_z H)) by lra.
  assert (E : map (fun c : comp => ((Rclamp (Rmax 0 (f - range_mult * ht_delta H)) (Rmin lx (f + range_mult * ht_delta H)) (fst (fst c)),
      Rclamp (Rmax 0 (f - range_mult * ht_delta H)) (Rmin lx (f + range_mult * ht_delta H)) (snd (fst c))),
      (Rclamp (0 / range_mult) (range_mult * ly) (fst (snd c)), Rclamp (0 / range_mult) (range_mult * ly) (snd (snd c))))) (ht_comps H) = ht_comps H).
  { rewrite <- (map_id (ht_comps H)) at 2. apply map_ext_in. intros [[mx my] [sx sy]] I. specialize (I1 _ I). cbn [fst snd] in *. destruct I1 as (A1 & A2 & A3 & A4).
    unfold range_mult in *. rewrite !Rclamp_id by lra. reflexivity. }
  rewrite E. destruct H; reflexivity.
Qed.

(* construction *)
Lemma new_ok res eff xyz a b m2 real draws : 0 < res -> 0 < eff -> a <> b -> draws <> [] ->
  (forall d, In d draws -> let '((u1, u2), (v1, v2)) := d in 0 <= u1 < 1 /\ 0 <= u2 < 1 /\ 0 <= v1 < 1 /\ 0 <= v2 < 1) ->
  exists H, new_heat res eff xyz (a, b) m2 false real draws = Ok H /\ heat_ok H
  /\ ht_res H = res /\ ht_eff H = eff /\ ht_m2 H = m2 /\ ht_fix H = fst xyz /\ ht_z H = snd xyz /\ ht_norm H = 1 /\ ht_delta H = Rabs (b - a)
  /\ List.length (ht_comps H) = List.length draws
  /\ forall c, In c (ht_comps H) -> let '((mx, my), (sx, sy)) := c in
       Rabs (mx - fst (fst xyz)) <= Rabs (b - a) / 2 /\ Rabs (my - snd (fst xyz)) <= Rabs (b - a) / 2
       /\ Rabs (b - a) / 5 <= sx <= Rabs (b - a) /\ Rabs (b - a) / 5 <= sy <= Rabs (b - a).
Proof.
  intros Hr He Hab Hn Hd. unfold new_heat. destruct (Rleb_spec res 0); [lra|]. destruct (Rleb_spec eff 0); [lra|]. cbn [fst snd].
  set (span := if Rltb b a then (b, a) else (a, b)).
  assert (Ed : snd span - fst span = Rabs (b - a)) by (unfold span; destruct (Rltb_spec b a); cbn [fst snd]; [rewrite Rabs_left|rewrite Rabs_right]; lra).
  assert (Pd : 0 < Rabs (b - a)) by (apply Rabs_pos_lt; lra). rewrite Ed. set (D := Rabs (b - a)) in *.
  assert (C : forall c, In c (map (new_comp D (fst xyz)) draws) -> let '((mx, my), (sx, sy)) := c in
       Rabs (mx - fst (fst xyz)) <= D / 2 /\ Rabs (my - snd (fst xyz)) <= D / 2 /\ D / 5 <= sx <= D /\ D / 5 <= sy <= D).
  { intros c I. apply in_map_iff in I as ([[u1 u2] [v1 v2]] & <- & I). specialize (Hd _ I). cbn [fst snd] in Hd. destruct Hd as (U1 & U2 & V1 & V2). cbn [new_comp].
    assert (M : forall v, 0 <= v < 1 -> D / 5 <= D * Rmax v (1 / 5) <= D) by (intros v Hv; apply Rmax_case_strong; intros; nra).
    split; [|split; [|split; auto]]; apply Rabs_le; nra. }
  assert (F : forallb good_scale (map (new_comp D (fst xyz)) draws) = true).
  { apply forallb_forall. intros c I. specialize (C c I). destruct c as [[mx my] [sx sy]]. unfold good_scale. cbn [fst snd].
    rewrite !(proj2 (Rltb_true _ _)) by lra. reflexivity. }
  rewrite F. cbn [negb]. eexists. split; [reflexivity|]. unfold ht_delta. cbn [ht_res ht_eff ht_m2 ht_fix ht_span ht_comps ht_norm ht_z ht_real].
  split; [|repeat split; try reflexivity; try exact Ed; [rewrite map_length; reflexivity|exact C]].
  unfold heat_ok. cbn [ht_res ht_eff ht_norm ht_comps]. repeat (split; [lra|]). split; [destruct draws; [congruence|discriminate]|].
  intros c I. specialize (C c I). destruct c as [[mx my] [sx sy]]. cbn [fst snd]. lra.
Qed.
Lemma new_square res eff xyz a m2 budget real draws : draws <> [] -> new_heat res eff xyz (a, a) m2 budget real draws = Err ValueError.
Proof.
  intros N. unfold new_heat. destruct (Rleb res 0); [reflexivity|]. destruct (Rleb eff 0); [reflexivity|]. cbn [fst snd].
  destruct draws as [|[[u1 u2] [v1 v2]] ds]; [congruence|].
  assert (E : (if Rltb a a then (a, a) else (a, a)) = (a, a)) by (destruct (Rltb a a); reflexivity). rewrite E. cbn [fst snd map forallb].
  unfold good_scale at 1. cbn [new_comp fst snd]. rewrite (proj2 (Rltb_false 0 _)) by lra. reflexivity.
Qed.

(* ---------- cost; rows ---------- *)
Lemma Rsum_between (l : list R) lo hi : (forall x, In x l -> lo <= x <= hi) -> INR (List.length l) * lo <= Rsum l <= INR (List.length l) * hi.
Proof.
  induction l as [|a l IH]; intros G; [cbn; lra|]. cbn [List.length Rsum]. rewrite S_INR. pose proof (G a (or_introl eq_refl)). destruct (IH (fun x I => G x (or_intror I))). split; lra.
Qed.
Lemma cost_spec H lo hi : ht_comps H <> [] -> 0 <= ht_m2 H -> (forall c, In c (ht_comps H) -> lo <= fst (snd c) * snd (snd c) <= hi) ->
  ht_m2 H * lo <= heat_cost H <= ht_m2 H * hi
  /\ forall H' k, ht_m2 H' = ht_m2 H -> map snd (ht_comps H') = map (fun c => (k * fst (snd c), k * snd (snd c))) (ht_comps H) ->
     heat_cost H' = k * k * heat_cost H.
Proof.
  intros N M G. set (ar := fun c : (R * R) * (R * R) => fst (snd c) * snd (snd c)).
  assert (Ln : 0 < INR (List.length (ht_comps H))) by (apply lt_0_INR; destruct (ht_comps H); [congruence|cbn; lia]).
  split.
  - assert (B := Rsum_between (map ar (ht_comps H)) lo hi). rewrite map_length in B. destruct B as [B1 B2].
    { intros x I. apply in_map_iff in I as (c & <- & I). exact (G c I). }
    unfold heat_cost. fold ar. set (n := INR (List.length (ht_comps H))) in *. set (s := Rsum (map ar (ht_comps H))) in *.
    assert (lo <= s / n <= hi).
    { assert (E : s / n * n = s) by (field; lra). split; apply Rmult_le_reg_r with n; try exact Ln; rewrite E; lra. }
    split; apply Rmult_le_compat_l; lra.
  - intros H' k Em Ec. unfold heat_cost. rewrite Em. fold ar.
    assert (EL : List.length (ht_comps H') = List.length (ht_comps H)) by (rewrite <- (map_length snd (ht_comps H')), Ec, map_length; reflexivity). rewrite EL.
    replace (map ar (ht_comps H')) with (map (fun q : R * R => fst q * snd q) (map snd (ht_comps H'))) by (rewrite map_map; reflexivity). rewrite Ec, map_map. cbn [fst snd].
    assert (Q : forall l, Rsum (map (fun x : (R * R) * (R * R) => k * fst (snd x) * (k * snd (snd x))) l) = k * k * Rsum (map ar l)).
    { induction l as [|c' l' IH']; [cbn; ring|]. cbn [map Rsum]. rewrite IH'. unfold ar. ring. }
    rewrite Q. field. lra.
Qed.
Lemma mapM_len {A B} (f : A -> res B) l r : mapM f l = Ok r -> List.length r = List.length l.
Proof.
  revert r. induction l as [|a l IH]; intros r Em; cbn [mapM] in Em; [injection Em as <-; reflexivity|].
  destruct (f a); [|discriminate]. cbn [bind] in Em. destruct (mapM f l); [|discriminate]. cbn [bind] in Em. injection Em as <-. cbn [List.length]. f_equal. now apply IH.
Qed.
Lemma mapM_nth {A B} (f : A -> res B) l r : mapM f l = Ok r -> forall i a, nth_error l i = Some a -> exists b, f a = Ok b /\ nth_error r i = Some b.
Proof.
  revert r. induction l as [|a l IH]; intros r Em i x Hi; [destruct i; discriminate|]. cbn [mapM] in Em.
  destruct (f a) as [b|] eqn:Ea; [|discriminate]. cbn [bind] in Em. destruct (mapM f l) as [r'|] eqn:El; [|discriminate]. cbn [bind] in Em. injection Em as <-.
  destruct i as [|i]; cbn in Hi |- *; [injection Hi as <-; eauto|]. now apply (IH r').
Qed.
