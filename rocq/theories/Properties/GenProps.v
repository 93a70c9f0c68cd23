(* Generation of muons: C64, C78, C79. *)
Require Import Reals Lra Lia.
From Verif Require Import Model.Generation Spec.GenSpec Proofs.GenP.
Open Scope R_scope.
Open Scope list_scope.

Definition draw_ok (d : draw) : Prop := 0 <= d_flux d < 1 /\ 0 <= d_phi d < 1 /\ 0 <= d_x d < 1 /\ 0 <= d_y d < 1.
(* what is known about one muon *)
Definition muon_ok (mass2 : R) (f : R -> R -> R) (x_range y_range : R * R) (mom : option R) (er tr : R * R) (d : draw) (m : muon_row) : Prop :=
  fst x_range <= m_x m < snd x_range /\ fst y_range <= m_y m < snd y_range /\ 0 <= m_phi m < 2 * PI /\
  exists i j, (i < 200)%nat /\ (j < 200)%nat /\
    (* the cell is the one that the draw selects *)
    selects f er tr (d_flux d * total_flux f er tr) (200 * i + j) /\
    m_theta m = centre (theta_edge tr) i /\ fst tr <= m_theta m <= snd tr /\
    match mom with
    | Some p => m_p m = Fin p
    | None => exists p, m_p m = Fin p /\ 0 <= p /\ fst er <= sqrt (p * p + mass2) <= snd er /\ sqrt (p * p + mass2) = centre (energy_edge er) j
    end.
(* C64. For all random numbers, every muon lies in the configured ranges; its cell (i, j) is selected by an interval of draws
   as long as its flux. *)
Theorem C64_kinematics :
  forall flux f mass2 x_range y_range mom er tr ds,
  fst x_range < snd x_range -> fst y_range < snd y_range -> 0 < fst er <= snd er -> fst tr <= snd tr -> 0 <= mass2 <= fst er * fst er ->
  flux_ok flux f er tr -> Forall draw_ok ds ->
  exists g ms, new_generator flux x_range y_range mom er tr = Ok g /\ generate_set mass2 g ds = Ok ms /\
    Forall2 (muon_ok mass2 f x_range y_range mom er tr) ds ms.
Proof.
  intros flux f mass2 xrg yrg mom er tr ds Hx Hy He Ht Hm HF HD. exists (the_gen f er tr xrg yrg mom).
  assert (H1 : forall d, draw_ok d -> exists m, sample1 mass2 (the_gen f er tr xrg yrg mom) (total_flux f er tr) d = Ok m /\ muon_ok mass2 f xrg yrg mom er tr d m).
  { intros d (D1 & D2 & D3 & D4). destruct (sample_eq flux f er tr xrg yrg mom mass2 HF d ltac:(lra)) as (k & Hk & E). rewrite E. eexists. split; [reflexivity|].
    destruct (div200 k (proj1 Hk)) as [K1 K2]. unfold muon_ok. cbn [m_x m_y m_p m_theta m_phi]. unfold uniform. split; [nra|]. split; [nra|]. split; [pose proof PI_RGT_0; nra|].
    exists (k / 200)%nat, (k mod 200)%nat. split; [exact K1|]. split; [exact K2|]. rewrite <- Nat.div_mod by discriminate. split; [exact Hk|]. split; [reflexivity|]. split.
    - rewrite <- (theta_edge_0 tr), <- (theta_edge_200 tr) at 1. apply centre_between; [|exact K1]. intros a b. now apply theta_edge_le.
    - destruct mom as [p|]; [reflexivity|]. cbn zeta. set (e := centre (energy_edge er) (k mod 200)).
      assert (HE : fst er <= e <= snd er). { rewrite <- (energy_edge_0 er) at 1. rewrite <- (energy_edge_200 er) by lra. apply centre_between; [|exact K2]. intros a b. now apply energy_edge_le. }
      assert (HP : 0 <= e * e - mass2) by nra. rewrite xsqrt_fin by exact HP. eexists. split; [reflexivity|]. split; [apply sqrt_pos|]. rewrite sqrt_sqrt by exact HP.
      replace (e * e - mass2 + mass2) with (e * e) by ring. rewrite sqrt_square by lra. auto. }
  assert (H2 : exists ms, generate_set mass2 (the_gen f er tr xrg yrg mom) ds = Ok ms /\ Forall2 (muon_ok mass2 f xrg yrg mom er tr) ds ms).
  { rewrite gen_eq. induction HD as [|d ds Hd HD IH]; [exists []; split; [reflexivity|constructor]|]. destruct IH as (ms & E & F). destruct (H1 d Hd) as (m & E1 & F1).
    exists (m :: ms). cbn [mapM]. rewrite E1. cbn [bind]. rewrite E. split; [reflexivity|now constructor]. }
  destruct H2 as (ms & E & F). exists ms. split; [apply new_eq; [lra|lra|exact HF]|]. split; assumption.
Qed.
Print Assumptions C64_kinematics.
(* C64. An energy range with a zero end is refused, whatever the flux and the other ranges. *)
Theorem C64_zero_energy :
  forall flux x_range y_range mom er tr, fst er = 0 \/ snd er = 0 -> new_generator flux x_range y_range mom er tr = Err ValueError.
Proof.
  intros flux xrg yrg mom er tr H. unfold new_generator, geomspace.
  assert (Reqb (fst er) 0 || Reqb (snd er) 0 = true) as ->; [|reflexivity].
  apply orb_true_iff. destruct H as [H|H]; [left|right]; now apply Reqb_true.
Qed.
Print Assumptions C64_zero_energy.
Example C64_zero_energy_case : new_generator flux2016 (0, 1) (0, 1) None (0, 500) (0, 1) = Err ValueError.
Proof. apply C64_zero_energy. now left. Qed.
(* C64. A draw selects one cell only. *)
Theorem C64_cells :
  forall flux f er tr u k k', flux_ok flux f er tr -> selects f er tr u k -> selects f er tr u k' -> k = k'.
Proof.
  intros flux f er tr u k k' [HF _]. apply selects_unique. intros c Hc. destruct (div200 c Hc) as [A B]. apply (HF _ _ B A).
Qed.
Print Assumptions C64_cells.
(* C64. Both flux models satisfy the condition for all energies and all angles up to the horizontal. *)
Theorem C64_models :
  forall flux er tr, flux = flux2015 \/ flux = flux2016 -> 0 < fst er <= snd er -> 0 <= fst tr < snd tr -> snd tr <= PI / 2 ->
  exists f, flux_ok flux f er tr.
Proof.
  intros flux er tr Hf He Ht Ht'.
  assert (HP : forall e t, 0 < e -> 0 < t < PI / 2 -> exists x, flux e t = Fin x /\ 0 < x) by (destruct Hf; subst; [exact flux2015_pos|exact flux2016_pos]).
  exists (fun e t => match flux e t with Fin x => x | _ => 0 end).
  assert (HC : forall i j, (i < 200)%nat -> (j < 200)%nat -> exists x, flux (centre (energy_edge er) i) (centre (theta_edge tr) j) = Fin x /\ 0 < x).
  { intros i j Hi Hj. apply HP.
    - unfold centre. pose proof (energy_edge_pos er i ltac:(lra)). pose proof (energy_edge_pos er (S i) ltac:(lra)). lra.
    - pose proof (centre_strict (theta_edge tr) j (fun a b => theta_edge_lt tr a b ltac:(lra)) Hj) as H. rewrite theta_edge_0, theta_edge_200 in H. lra. }
  split.
  - intros i j Hi Hj. cbn zeta. destruct (HC i j Hi Hj) as (x & -> & Hx). split; [reflexivity|lra].
  - unfold total_flux. apply total_pos; [apply Nat.ltb_lt; reflexivity|]. intros k Hk. destruct (div200 k Hk) as [A B]. unfold cell_flux. destruct (HC _ _ B A) as (x & -> & Hx). exact Hx.
Qed.
Print Assumptions C64_models.
(* C64. Both flux models fall with the energy, at every angle above the horizontal. *)
Theorem C64_falls :
  forall flux e e' t, flux = flux2015 \/ flux = flux2016 -> 0 < e < e' -> 0 < t < PI / 2 ->
  exists x x', flux e t = Fin x /\ flux e' t = Fin x' /\ 0 < x' < x.
Proof.
  intros flux e e' t Hf He Ht.
  assert (H : (exists x x', flux e t = Fin x /\ flux e' t = Fin x' /\ x' < x) /\ exists y, flux e' t = Fin y /\ 0 < y)
    by (destruct Hf; subst; (split; [first [now apply flux2015_falls|now apply flux2016_falls]|first [apply flux2015_pos; lra|apply flux2016_pos; lra]])).
  destruct H as [(x & x' & E & E' & L) (y & Ey & P)]. rewrite E' in Ey. injection Ey as <-. exists x, x'. auto.
Qed.
Print Assumptions C64_falls.
(* C64. The energy spectrum of the 2016 model is normalised above E_c: its integral from E_c to e goes to 1.
   The flux is that spectrum with the decay factor 1 / (1 + e / 854), times a function of the angle. *)
Theorem C64_norm :
  let part := fun e => 1 - (E_0 + E_c) * (E_0 + E_c) / ((E_0 + e) * (E_0 + e)) in
  (forall e, 0 < e -> derivable_pt_lim part e (N_2016 * (1 / ((E_0 + e) * (E_0 + e) * (E_0 + e))))) /\ part E_c = 0 /\
  (forall eps, 0 < eps -> exists e0, forall e, e0 < e -> 1 - eps < part e < 1) /\
  (forall t, exists rest, forall e, 0 < e -> flux2016 e t = Fin (N_2016 * (1 / ((E_0 + e) * (E_0 + e) * (E_0 + e))) * (1 / (1 + e / 854)) * rest)).
Proof.
  cbn zeta. unfold N_2016. set (k := (E_0 + E_c) * (E_0 + E_c)). assert (Hk : 0 < k < 20) by (unfold k, E_0, E_c; lra). split; [|split; [|split]].
  - intros e He. assert (HE : 0 < E_0 + e) by (unfold E_0; lra). set (q := fun e => (E_0 + e) * (E_0 + e)).
    assert (Dq : derivable_pt_lim q e (2 * (E_0 + e))).
    { unfold q. replace (2 * (E_0 + e)) with (1 * (E_0 + e) + (E_0 + e) * 1) by ring. apply (derivable_pt_lim_mult (fun e => E_0 + e) (fun e => E_0 + e));
      (replace 1 with (0 + 1) by ring; apply (derivable_pt_lim_plus (fun _ => E_0) (fun e => e)); [apply derivable_pt_lim_const|apply derivable_pt_lim_id]). }
    replace (2 * k * (1 / ((E_0 + e) * (E_0 + e) * (E_0 + e)))) with (0 - (0 * q e - 2 * (E_0 + e) * k) / Rsqr (q e)) by (unfold q, Rsqr; field; lra).
    apply (derivable_pt_lim_minus (fun _ => 1) (fun e => k / q e)); [apply derivable_pt_lim_const|]. apply (derivable_pt_lim_div (fun _ => k) q); [apply derivable_pt_lim_const|exact Dq|unfold q; nra].
  - unfold k. field. unfold E_0, E_c. lra.
  - intros eps He. exists (20 / eps + 1). intros e H. assert (HE : 20 / eps + 1 < E_0 + e) by (unfold E_0; lra). assert (P : 0 < 20 / eps) by (apply Rdiv_lt_0_compat; lra).
    set (u := E_0 + e) in *. assert (Hu : 20 / eps < u * u) by nra. assert (0 < k / (u * u)) by (apply Rdiv_lt_0_compat; nra). assert (k / (u * u) < eps); [|lra].
    apply (Rmult_lt_reg_r (u * u)); [nra|]. unfold Rdiv at 1. rewrite Rmult_assoc, Rinv_l by nra. apply (Rmult_lt_compat_l eps) in Hu; [|exact He]. replace (eps * (20 / eps)) with 20 in Hu by (field; lra). lra.
  - intros t. set (c := cos t). assert (HR : 0 < Rod * Rod * (c * c) + 2 * Rod + 1) by (unfold Rod; nra).
    set (s := sqrt (Rod * Rod * (c * c) + 2 * Rod + 1) + - (Rod * c)).
    assert (Hs : 0 < s). { unfold s. assert (Rabs (Rod * c) < sqrt (Rod * Rod * (c * c) + 2 * Rod + 1)). { rewrite <- sqrt_Rsqr_abs. apply sqrt_lt_1; unfold Rsqr, Rod in *; nra. } pose proof (Rle_abs (Rod * c)). lra. }
    exists (I_0 * (1 / (s * s)) * c * sin t). intros e He. unfold flux2016, N_2016. fold k. cbn zeta. fold c. rewrite xsqrt_fin by lra. unfold xsub. cbn [xopp xadd xmul]. fold s.
    rewrite !xdiv_fin; [cbn [xmul]; f_equal| | |].
    + unfold epinv. replace (e / 854) with (e * (1 / 854)) by (unfold Rdiv; ring). ring.
    + nra.
    + unfold epinv. apply Rgt_not_eq. nra.
    + unfold E_0. apply Rgt_not_eq. assert (0 < 3.87 + e) by lra. apply Rmult_lt_0_compat; nra.
Qed.
Print Assumptions C64_norm.
Example C64_case : exists f, flux_ok flux2015 f (1 / 2, 500) (0, 70 * PI / 180).
Proof. apply C64_models; cbn [fst snd]; [auto|lra| |]; pose proof PI_RGT_0; lra. Qed.

(* C78 is false: the flux (per energy) is not multiplied by the width of the energy bins, which grow with the energy:
   a flux that does not depend on the energy selects the lowest and the highest bin equally often, although the highest is more than 31 times as wide. *)
Theorem C78_bin_width_refuted :
  let er := (1 / 2, 500) in let tr := (0, 1) in let f := fun _ _ : R => 1 in
  flux_ok (fun _ _ => Fin 1) f er tr /\
  (forall k, (k < 200 * 200)%nat -> cell_flux f er tr k = 1) /\
  31 * (energy_edge er 1 - energy_edge er 0) < energy_edge er 200 - energy_edge er 199.
Proof.
  cbn zeta. split; [|split].
  - split; [intros; cbn; split; [reflexivity|lra]|]. apply total_pos; [apply Nat.ltb_lt; reflexivity|]. intros; unfold cell_flux; lra.
  - reflexivity.
  - unfold energy_edge. cbn [fst snd]. rewrite INR200. replace (INR 199) with 199 by (rewrite INR_IZR_INZ; reflexivity). cbn [INR]. replace (500 / (1 / 2)) with 1000 by lra.
    replace (0 / 200) with 0 by lra. replace (200 / 200) with (199 / 200 + 1 / 200) by lra. rewrite (Rpower_plus (199 / 200)), Rpower_O by lra.
    assert (HA : 1 < Rpower 1000 (1 / 200)). { assert (X : Rpower 1000 0 < Rpower 1000 (1 / 200)) by (apply Rpower_lt; lra). rewrite Rpower_O in X by lra. exact X. }
    assert (HB : 31 < Rpower 1000 (199 / 200)).
    { apply Rlt_trans with (Rpower 1000 (/ 2)); [|apply Rpower_lt; lra]. rewrite Rpower_sqrt by lra. rewrite <- (sqrt_square 31) by lra. apply sqrt_lt_1; lra. }
    nra.
Qed.
Print Assumptions C78_bin_width_refuted.

(* C79. A muon generated at the edge of the region of from_volume, or beyond, reaches the passive volume (0 <= x <= lx, down to z_low) only
   if its angle is larger than min_angle; the same for y. *)
Theorem C79_minimum_angle :
  forall flux lw h z_low size min_angle mom er tr g x0 y0 theta phi z,
  z_low < h -> 0 < size -> 0 < min_angle < PI / 2 -> 0 <= theta < PI / 2 -> z_low <= z <= h ->
  from_volume flux lw h z_low size min_angle mom er tr = Ok g ->
  let x := coord_at x0 h (tan theta * cos phi) z in let y := coord_at y0 h (tan theta * sin phi) z in
  (x0 <= fst (g_x g) \/ snd (g_x g) <= x0 -> 0 <= x <= fst lw -> min_angle < theta) /\
  (y0 <= fst (g_y g) \/ snd (g_y g) <= y0 -> 0 <= y <= snd lw -> min_angle < theta).
Proof.
  intros flux lw h zl size a mom er tr g x0 y0 th ph z Hz Hs Ha Ht Hzz E.
  assert (Eg : g_x g = (0 - tan a * (h - zl + size), fst lw + tan a * (h - zl + size)) /\ g_y g = (0 - tan a * (h - zl + size), snd lw + tan a * (h - zl + size))).
  { unfold from_volume, new_generator in E. destruct (geomspace _ _ _); [|discriminate]. cbn [bind] in E. injection E as <-. auto. }
  destruct Eg as [-> ->]. cbn zeta. cbn [fst snd]. unfold coord_at.
  assert (HT : 0 < tan a) by (apply tan_gt_0; lra). assert (Hth : 0 <= tan th) by (destruct (Rle_lt_or_eq_dec 0 th (proj1 Ht)) as [L|L]; [left; apply tan_gt_0; lra|rewrite <- L, tan_0; lra]).
  assert (W : forall s x l, -1 <= s <= 1 -> (x <= 0 - tan a * (h - zl + size) \/ l + tan a * (h - zl + size) <= x) -> 0 <= x + (h - z) * (tan th * s) <= l -> a < th).
  { intros s x l Hss Hx Hi. destruct (Rlt_le_dec a th) as [L|L]; [exact L|exfalso].
    assert (HTT : tan th <= tan a). { destruct (Rle_lt_or_eq_dec _ _ L) as [L'|L']; [left; apply tan_increasing; lra|rewrite L'; lra]. }
    assert (B1 : (h - z) * tan th <= (h - zl) * tan a) by (apply Rmult_le_compat; lra). assert (B0 : 0 <= (h - z) * tan th) by (apply Rmult_le_pos; lra).
    assert (B2 : 0 < tan a * size) by now apply Rmult_lt_0_compat.
    assert (B3 : (h - z) * (tan th * s) <= (h - z) * tan th) by nra. assert (B4 : - ((h - z) * tan th) <= (h - z) * (tan th * s)) by nra. nra. }
  split; apply W; [apply COS_bound|apply SIN_bound].
Qed.
Print Assumptions C79_minimum_angle.
(* C79. The bound is not attained: at min_angle, aimed straight at the volume, the muon misses it by tan(min_angle) times the size of a voxel. *)
Theorem C79_not_tight :
  forall flux lw h z_low size min_angle mom er tr g,
  0 < size -> 0 < min_angle < PI / 2 -> from_volume flux lw h z_low size min_angle mom er tr = Ok g ->
  coord_at (fst (g_x g)) h (tan min_angle * cos 0) z_low = - (tan min_angle * size) /\ - (tan min_angle * size) < 0.
Proof.
  intros flux lw h zl size a mom er tr g Hs Ha E. assert (Eg : g_x g = (0 - tan a * (h - zl + size), fst lw + tan a * (h - zl + size))).
  { unfold from_volume, new_generator in E. destruct (geomspace _ _ _); [|discriminate]. cbn [bind] in E. injection E as <-. auto. }
  rewrite Eg. cbn [fst]. unfold coord_at. rewrite cos_0. split; [ring|]. assert (0 < tan a) by (apply tan_gt_0; lra). assert (0 < tan a * size) by now apply Rmult_lt_0_compat. lra.
Qed.
Print Assumptions C79_not_tight.
Example C79_case : exists g, from_volume flux2016 (1, 1) 1.2 0.2 0.1 (PI / 12) (Some 5) (1 / 2, 500) (0, 1) = Ok g.
Proof. unfold from_volume, new_generator, geomspace. cbn [fst snd]. destruct (Reqb_spec (1 / 2) 0); [lra|]. destruct (Reqb_spec 500 0); [lra|]. eexists. reflexivity. Qed.
Theorem C79_tight_refuted : exists flux lw h z_low size min_angle mom er tr g,
  0 < size /\ 0 < min_angle < PI / 2 /\ from_volume flux lw h z_low size min_angle mom er tr = Ok g /\ coord_at (fst (g_x g)) h (tan min_angle * cos 0) z_low < 0.
Proof.
  destruct C79_case as [g E]. exists flux2016, (1, 1), 1.2, 0.2, 0.1, (PI / 12), (Some 5), (1 / 2, 500), (0, 1), g. pose proof PI_RGT_0 as HP.
  destruct (C79_not_tight flux2016 (1, 1) 1.2 0.2 0.1 (PI / 12) (Some 5) (1 / 2, 500) (0, 1) g) as [A B]; [lra|lra|exact E|]. split; [lra|]. split; [lra|]. split; [exact E|]. rewrite A. exact B.
Qed.
Print Assumptions C79_tight_refuted.
