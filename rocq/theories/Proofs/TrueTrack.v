(* Fitting the true hits of a muon gives back the muon: C71. *)
From Coq Require Import Psatz.
From Verif Require Import Base.Trig Model.Volume Model.Scatter Spec.ListSpec Spec.MuonSpec Spec.AngleSpec Spec.LayerSpec Spec.VolumeSpec Spec.ScatterSpec.
From Verif Require Import Proofs.MuonBatchP Proofs.MuonConserve Proofs.MuonAngles Proofs.LayerP Proofs.PanelP Proofs.ScatterGeo Proofs.TrackFit Proofs.ScatterBatchP.
Open Scope R_scope.
Open Scope string_scope.
Open Scope list_scope.

Definition mu3 (u : muon) : v3 := V3 (mx u) (my u) (mz u).
Lemma at_height_line c z : 0 < cos (g_th c) ->
  mu3 (at_height c z) = fv ((g_x c + g_z c * (tan (g_th c) * cos (g_ph c))) + (- (tan (g_th c) * cos (g_ph c))) * z,
                            (g_y c + g_z c * (tan (g_th c) * sin (g_ph c))) + (- (tan (g_th c) * sin (g_ph c))) * z, z).
Proof.
  intro C. unfold at_height, along, mu3, dir. cbn [mx my mz fv]. unfold tan. f_equal; f_equal; field; lra.
Qed.

Lemma true_track lw zr c z0 z1 rest : downwards c -> z1 < z0 ->
  exists t ph, trajectory lw (map (fun z => mu3 (at_height c z)) (z0 :: z1 :: rest)) (map (fun _ => V3 (Fin 1) (Fin 1) (Fin 1)) (z0 :: z1 :: rest)) = Ok t
    /\ theta1 (t_vec t) = Fin (g_th c)
    /\ phi1 (vx (t_vec t)) (vy (t_vec t)) = Fin ph /\ (0 < g_th c -> cos ph = cos (g_ph c) /\ sin ph = sin (g_ph c))
    /\ (0 < g_th c -> 0 <= g_ph c < 2 * PI -> ph = g_ph c)
    /\ t_start t = mu3 (at_height c z0)
    /\ xyz_in1 zr t = mu3 (at_height c (snd zr)) /\ xyz_out1 zr t = mu3 (at_height c (fst zr))
    /\ 0 <= ph < 2 * PI /\ exists k, 0 < k /\ t_vec t = fv (scale3 k (direction (g_th c) (g_ph c))).
Proof.
  intros Hc L. unfold downwards in Hc. pose proof PI_pos as PP. assert (C : 0 < cos (g_th c)) by (apply cos_gt_0; lra).
  set (bx := tan (g_th c) * cos (g_ph c)). set (by' := tan (g_th c) * sin (g_ph c)).
  set (h z := Hit (Fin ((g_x c + g_z c * bx) + - bx * z)) (Fin ((g_y c + g_z c * by') + - by' * z)) z (Fin 1) (Fin 1) (Fin 1)).
  assert (P75 : 1 < 2 ^ 75) by (apply Rlt_pow_R1; [lra|lia]).
  assert (U : forall zs, used_x (map h zs) = map (fun z => ((g_x c + g_z c * bx) + - bx * z, z, 1)) zs
            /\ used_y (map h zs) = map (fun z => ((g_y c + g_z c * by') + - by' * z, z, 1)) zs).
  { unfold used_x, used_y. induction zs as [|z zs [I1 I2]]; [split; reflexivity|]. cbn [map flat_map]. rewrite I1, I2.
    unfold h at 1 2 3 4 5 6. cbn [h_x h_y h_z u_x u_y used1]. destruct (Rlt_dec 1 (2 ^ 75)); [split; reflexivity|lra]. }
  assert (E : trajectory lw (map hit_xyz (map h (z0 :: z1 :: rest))) (map hit_unc (map h (z0 :: z1 :: rest)))
              = Ok (track_on (g_x c + g_z c * bx) (- bx) (g_y c + g_z c * by') (- by') z0 z1)).
  { cbn [map]. apply fit_exact.
    - intros k [<-|[<-|Hin]]; [| |apply in_map_iff in Hin as (z & <- & _)]; unfold h; cbn; split; (split; [discriminate|]); right; exists 1; (split; [reflexivity|]); (split; [lra|]); right; eauto.
    - change (two_heights (used_x (map h (z0 :: z1 :: rest)))). rewrite (proj1 (U _)). do 2 eexists. split; [left; reflexivity|]. split; [right; left; reflexivity|]. cbn. lra.
    - change (two_heights (used_y (map h (z0 :: z1 :: rest)))). rewrite (proj2 (U _)). do 2 eexists. split; [left; reflexivity|]. split; [right; left; reflexivity|]. cbn. lra.
    - intros x z s. change (In (x, z, s) (used_x (map h (z0 :: z1 :: rest))) -> x = g_x c + g_z c * bx + - bx * z). rewrite (proj1 (U _)). intro Hin. apply in_map_iff in Hin as (z' & Hz & _). injection Hz as <- <- <-. auto.
    - intros x z s. change (In (x, z, s) (used_y (map h (z0 :: z1 :: rest))) -> x = g_y c + g_z c * by' + - by' * z). rewrite (proj2 (U _)). intro Hin. apply in_map_iff in Hin as (z' & Hz & _). injection Hz as <- <- <-. auto. }
  assert (E1 : map hit_xyz (map h (z0 :: z1 :: rest)) = map (fun z => mu3 (at_height c z)) (z0 :: z1 :: rest)).
  { rewrite map_map. apply map_ext. intro z. rewrite at_height_line by auto. reflexivity. }
  assert (E2 : map hit_unc (map h (z0 :: z1 :: rest)) = map (fun _ => V3 (Fin 1) (Fin 1) (Fin 1)) (z0 :: z1 :: rest)) by (rewrite map_map; reflexivity).
  rewrite E1, E2 in E. set (d := z0 - z1) in *. assert (D : 0 < d) by (unfold d; lra).
  set (v := (- bx * (z1 - z0), - by' * (z1 - z0), z1 - z0)).
  assert (V : v = scale3 (d / cos (g_th c)) (direction (g_th c) (g_ph c))).
  { unfold v, scale3, direction, bx, by', d, tan. f_equal; [f_equal|]; field; lra. }
  assert (N : norm3 v = d / cos (g_th c)).
  { rewrite V, norm3_scale by (apply Rlt_le, Rdiv_lt_0_compat; auto). rewrite <- (Rmult_1_r (d / cos (g_th c))) at 2. f_equal. unfold norm3, direction, dot3.
    rewrite <- sqrt_1. f_equal. pose proof (sin2_cos2 (g_th c)) as S1. pose proof (sin2_cos2 (g_ph c)) as S2. unfold Rsqr in *.
    transitivity (sin (g_th c) * sin (g_th c) * (sin (g_ph c) * sin (g_ph c) + cos (g_ph c) * cos (g_ph c)) + cos (g_th c) * cos (g_th c)); [ring|]. rewrite S2. lra. }
  assert (Zn : z3 v < 0) by (unfold v, z3; cbn; lra).
  assert (NP : 0 < norm3 v) by (rewrite N; apply Rdiv_lt_0_compat; auto).
  destruct (theta_phi_direction v Zn) as (th & ph & T1 & T2 & B1 & B2 & Dir).
  rewrite V in Dir at 2. rewrite <- N in Dir. unfold scale3, direction in Dir. injection Dir as D1 D2 D3.
  assert (CT : cos th = cos (g_th c)) by nra.
  assert (TH : th = g_th c) by (apply angle_unique; lra).
  exists (track_on (g_x c + g_z c * bx) (- bx) (g_y c + g_z c * by') (- by') z0 z1), ph. split; [exact E|].
  unfold track_on. cbn [t_vec t_start]. fold v. split; [rewrite T1; congruence|]. split; [exact T2|].
  assert (CS : 0 < g_th c -> cos ph = cos (g_ph c) /\ sin ph = sin (g_ph c)).
  { intro TP. assert (S : 0 < sin (g_th c)) by (apply sin_gt_0; lra). rewrite TH in D1, D2.
    apply Rmult_eq_reg_l in D1; [|lra]. apply Rmult_eq_reg_l in D2; [|lra]. apply Rmult_eq_reg_l in D1; [|lra]. apply Rmult_eq_reg_l in D2; [|lra]. auto. }
  split; [exact CS|]. split.
  { intros TP Hp. destruct (CS TP) as [C1 S1].
    (* same cosine and sine in [0, 2 pi) *)
    assert (CD : cos (ph - g_ph c) = 1) by (rewrite cos_minus, C1, S1; pose proof (sin2_cos2 (g_ph c)); unfold Rsqr in *; lra).
    assert (K : forall a, 0 <= a < 2 * PI -> cos a = 1 -> a = 0).
    { intros a Ha Ca. destruct (Rle_dec a PI).
      - apply angle_unique; try lra. rewrite cos_0. auto.
      - assert (2 * PI - a = 0); [|lra]. apply angle_unique; try lra. rewrite cos_0, <- Ca. replace (2 * PI - a) with (- (a - 2 * PI)) by ring. rewrite cos_neg.
        rewrite <- (cos_period (a - 2 * PI) 1). f_equal. simpl. ring. }
    destruct (Rle_dec (g_ph c) ph).
    - apply K in CD; lra.
    - assert (CD' : cos (g_ph c - ph) = 1) by (rewrite <- CD, <- cos_neg; f_equal; ring). apply K in CD'; lra. }
  split; [rewrite at_height_line by auto; reflexivity|].
  destruct (entry_exit v (g_x c + g_z c * bx + - bx * z0, g_y c + g_z c * by' + - by' * z0, z0) zr) as [(ti & Ei & Zi) (to & Eo & Zo)]; [lra|].
  unfold ftrack in Ei, Eo. split; [|split; [|split; [lra|]]].
  - transitivity (fv (on_line (g_x c + g_z c * bx + - bx * z0, g_y c + g_z c * by' + - by' * z0, z0) v ti)); [exact Ei|]. rewrite at_height_line by auto. f_equal.
    unfold z3, on_line, v, add3, scale3 in *. cbn [snd] in Zi. rewrite <- Zi. fold bx by'. f_equal; f_equal; ring.
  - transitivity (fv (on_line (g_x c + g_z c * bx + - bx * z0, g_y c + g_z c * by' + - by' * z0, z0) v to)); [exact Eo|]. rewrite at_height_line by auto. f_equal.
    unfold z3, on_line, v, add3, scale3 in *. cbn [snd] in Zo. rewrite <- Zo. fold bx by'. f_equal; f_equal; ring.
  - exists (d / cos (g_th c)). split; [apply Rdiv_lt_0_compat; auto|]. rewrite <- V. reflexivity.
Qed.

Lemma true_tracks_of_layer argsort D tr rng cs (b b' : batch hrow) lw zr z0 z1 rest :
  is_argsort argsort -> (forall c, In c cs -> downwards c) -> b_muons b = map g_mu cs -> b_hits b = [] ->
  det_forward argsort D tr rng b = Ok b' ->
  sort_down (map pn_z (dl_panels D)) = z0 :: z1 :: rest -> z1 < z0 ->
  exists d rows, get_hits None None b' = Ok d /\ assoc2 (dl_pos D) "gen_xyz" d = Some rows
    /\ forall i c, nth_error cs i = Some c -> exists hs t ph,
         nth_error rows i = Some (map l3 hs) /\ trajectory lw hs (map (fun _ => V3 (Fin 1) (Fin 1) (Fin 1)) hs) = Ok t
         /\ theta1 (t_vec t) = Fin (g_th c) /\ phi1 (vx (t_vec t)) (vy (t_vec t)) = Fin ph
         /\ (0 < g_th c -> 0 <= g_ph c < 2 * PI -> ph = g_ph c)
         /\ l3 (t_start t) = xyz (at_height c z0)
         /\ l3 (xyz_in1 zr t) = xyz (at_height c (snd zr)) /\ l3 (xyz_out1 zr t) = xyz (at_height c (fst zr)).
Proof.
  intros Ha Hd Em Eh E Ez L.
  assert (Hh0 : hits_ok hrow (len cs) (b_hits b)) by (rewrite Eh; constructor).
  destruct (det_forward_spec argsort D tr rng cs b b' Ha Hd Em Hh0 E) as (Em' & _ & _ & Hh & _ & Eg & _).
  assert (Rec : recorded (dl_pos D) "gen_xyz" (b_hits b') = map (fun z => map (fun c => xyz (at_height c z)) cs) (z0 :: z1 :: rest)).
  { rewrite Eg, Eh, Ez. reflexivity. }
  unfold recorded in Rec. destruct (assoc2 (dl_pos D) "gen_xyz" (b_hits b')) as [ts|] eqn:Ea; [|discriminate].
  assert (Hne : b_hits b' <> []) by (intro X; rewrite X in Ea; discriminate).
  exists (map_hits (tcols hrow (len cs)) (b_hits b')), (tcols hrow (len cs) ts).
  split; [apply get_hits_all; auto|]. split; [rewrite assoc2_map, Ea; reflexivity|].
  intros i c Hc. destruct (hits_ok_assoc2 _ _ _ _ _ _ Hh Ea) as [_ Hts].
  assert (Hl : (i < len (tcols hrow (len cs) ts))%nat) by (rewrite tcols_length by auto; apply nth_error_Some; congruence).
  destruct (nth_error (tcols hrow (len cs) ts) i) as [row|] eqn:Er; [|apply nth_error_None in Er; lia].
  pose proof (tcols_rows _ _ Hts _ _ Er) as F. rewrite Rec in F.
  assert (Row : row = map (fun z => xyz (at_height c z)) (z0 :: z1 :: rest)).
  { clear - F Hc. revert row F. induction (z0 :: z1 :: rest) as [|z zs IH]; intros row F; cbn [map] in *; inversion F; subst; auto.
    f_equal; auto. match goal with H : nth_error (map _ cs) i = Some _ |- _ => rewrite nth_error_map, Hc in H; cbn [option_map] in H; congruence end. }
  assert (Hin : In c cs) by (eapply nth_error_In; eauto).
  destruct (true_track lw zr c z0 z1 rest (Hd c Hin) L) as (t & ph & T & A1 & A2 & _ & A3 & A4 & A5 & A6 & _).
  exists (map (fun z => mu3 (at_height c z)) (z0 :: z1 :: rest)), t, ph.
  split; [rewrite Row, map_map; reflexivity|]. split; [rewrite map_map; exact T|]. do 3 (split; [auto|]). rewrite A4, A5, A6. auto.
Qed.
