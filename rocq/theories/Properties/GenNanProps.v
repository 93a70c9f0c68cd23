(* A generator whose flux or momentum is not a number: C106. *)
Require Import Reals Lra Lia.
From Verif Require Import Model.Generation Spec.GenSpec Proofs.GenP Properties.GenProps.
Open Scope R_scope.
Open Scope list_scope.

Lemma cumsum_nan s l d : s = NaN -> l <> [] -> last (cumsum_from s l) d = NaN.
Proof.
  intros ->. induction l as [|x l IH]; intros H; [congruence|]. cbn [cumsum_from]. change (xadd NaN x) with NaN. destruct l as [|y l]; [reflexivity|].
  transitivity (last (cumsum_from NaN (y :: l)) d); [reflexivity|]. apply IH. discriminate.
Qed.
Lemma xadd_nan x : xadd x NaN = NaN. Proof. now destruct x. Qed.
Lemma cumsum_in_nan l : forall s d, In NaN l -> last (cumsum_from s l) d = NaN.
Proof.
  induction l as [|x l IH]; intros s d H; [destruct H|]. cbn [cumsum_from]. destruct H as [->|H].
  - rewrite xadd_nan. destruct l as [|y l]; [reflexivity|]. transitivity (last (cumsum_from NaN (y :: l)) d); [reflexivity|]. apply cumsum_nan; [reflexivity|discriminate].
  - destruct l as [|y l]; [destruct H|]. transitivity (last (cumsum_from (xadd s x) (y :: l)) d); [reflexivity|]. now apply IH.
Qed.
(* C106. If the flux of one of the cells is NaN, the generator is made, but cannot be used: every request for muons raises, for any number of them. *)
Theorem C106_nan_flux :
  forall flux x_range y_range mom er tr i j,
  fst er <> 0 -> snd er <> 0 -> (i < 200)%nat -> (j < 200)%nat -> flux (centre (energy_edge er) i) (centre (theta_edge tr) j) = NaN ->
  exists g, new_generator flux x_range y_range mom er tr = Ok g /\ forall mass2 ds, generate_set mass2 g ds = Err OverflowError.
Proof.
  intros flux xrg yrg mom er tr i j H1 H2 Hi Hj HN. unfold new_generator, geomspace.
  destruct (Reqb_spec (fst er) 0); [lra|]. destruct (Reqb_spec (snd er) 0); [lra|]. cbn [orb bind]. eexists. split; [reflexivity|]. intros mass2 ds. unfold generate_set. cbn [g_cum].
  unfold n_bins_energy, n_bins_theta, linspace. rewrite INR200.
  change (map (fun i => fst er * Rpower (snd er / fst er) (INR i / 200)) (seq 0 (200 + 1))) with (map (energy_edge er) (seq 0 (200 + 1))).
  change (map (fun i => fst tr + INR i / 200 * (snd tr - fst tr)) (seq 0 (200 + 1))) with (map (theta_edge tr) (seq 0 (200 + 1))).
  rewrite !centres_eq. set (l := flat_map _ _).
  assert (HI : In NaN l).
  { unfold l. apply in_flat_map. exists (centre (theta_edge tr) j). split; [apply in_map, in_seq; lia|]. rewrite <- HN. apply (in_map (fun e => flux e (centre (theta_edge tr) j))). apply in_map, in_seq. lia. }
  clearbody l. unfold cumsum. rewrite (cumsum_in_nan l (Fin 0) NaN HI). destruct l; [destruct HI|]. reflexivity.
Qed.
Print Assumptions C106_nan_flux.
(* C106. The 2015 model has no flux from below the horizontal, and the 2016 model a negative one. *)
Theorem C106_below_horizon :
  forall e t, cos t < 0 ->
  flux2015 e t = NaN /\ (0 < e -> 0 < sin t -> exists x, flux2016 e t = Fin x /\ x < 0).
Proof.
  intros e t Hc. split.
  - unfold flux2015. cbn zeta. assert (HP : forall p, xpow (Fin (cos t)) p = NaN). { intros p. unfold xpow. destruct (Rlt_dec 0 (cos t)); [lra|]. now destruct (Rlt_dec (cos t) 0). }
    rewrite !HP. reflexivity.
  - intros He Hs. unfold flux2016. cbn zeta. set (c := cos t) in *.
    rewrite xsqrt_fin by (unfold Rod; nra). unfold xsub. cbn [xopp xadd xmul]. set (s := sqrt (Rod * Rod * (c * c) + 2 * Rod + 1) + - (Rod * c)). assert (Hs0 : 0 < s * s). { assert (0 < s). { unfold s. pose proof (sqrt_pos (Rod * Rod * (c * c) + 2 * Rod + 1)). unfold Rod in *. lra. } nra. }
    rewrite !xdiv_fin. 1: eexists; split; [reflexivity|].
    all: try (unfold epinv, E_0; apply Rgt_not_eq; nra).
    all: try lra.
    assert (H1 : 0 < I_0 * N_2016) by (unfold I_0, N_2016, E_0, E_c; lra). set (a := (E_0 + e) * (E_0 + e) * (E_0 + e)). assert (H2 : 0 < 1 / a). { apply Rdiv_lt_0_compat; [lra|]. unfold a, E_0. repeat apply Rmult_lt_0_compat; lra. }
    assert (H3 : 0 < 1 / (1 + e * epinv)). { apply Rdiv_lt_0_compat; [lra|]. unfold epinv. nra. } assert (H4 : 0 < 1 / (s * s)) by (apply Rdiv_lt_0_compat; lra).
    pose proof (Rmult_lt_0_compat _ _ H1 H2) as P1. pose proof (Rmult_lt_0_compat _ _ P1 H3) as P2. pose proof (Rmult_lt_0_compat _ _ P2 H4) as P3. pose proof (Rmult_lt_0_compat _ _ P3 Hs) as P4. nra.
Qed.
Print Assumptions C106_below_horizon.
(* C106 is false: with the default energies and angles up to 100 degrees, the generator of the 2015 model is made, but no muons can be generated. *)
Theorem C106_usable_refuted :
  exists er tr, 0 < fst er < snd er /\ 0 <= fst tr < snd tr /\ snd tr < PI /\
  exists g, new_generator flux2015 (0, 1) (0, 1) None er tr = Ok g /\ forall mass2 ds, generate_set mass2 g ds = Err OverflowError.
Proof.
  exists (1 / 2, 500), (0, 100 * PI / 180). cbn [fst snd]. pose proof PI_RGT_0. split; [lra|]. split; [lra|]. split; [lra|].
  apply (C106_nan_flux _ _ _ _ _ _ 0 199); cbn [fst snd]; [lra|lra|lia|lia|]. apply C106_below_horizon.
  apply cos_lt_0; unfold centre, theta_edge; cbn [fst snd]; rewrite INR200; replace (INR 199) with 199 by (rewrite INR_IZR_INZ; reflexivity); lra.
Qed.
Print Assumptions C106_usable_refuted.
(* C106. Momenta: a muon of a cell whose energy is less than the muon's mass has none (NaN); others have the momentum of their energy. *)
Theorem C106_momentum :
  forall flux f mass2 x_range y_range er tr ds,
  0 < fst er -> 0 < snd er -> flux_ok flux f er tr -> Forall draw_ok ds ->
  exists g ms, new_generator flux x_range y_range None er tr = Ok g /\ generate_set mass2 g ds = Ok ms /\
    Forall2 (fun d m => exists i j, (i < 200)%nat /\ (j < 200)%nat /\ selects f er tr (d_flux d * total_flux f er tr) (200 * i + j) /\
      let e := centre (energy_edge er) j in
      (e * e < mass2 -> m_p m = NaN) /\ (mass2 <= e * e -> exists p, m_p m = Fin p /\ 0 <= p /\ p * p = e * e - mass2)) ds ms.
Proof.
  intros flux f mass2 xrg yrg er tr ds He He' HF HD. exists (the_gen f er tr xrg yrg None). rewrite gen_eq.
  assert (H2 : exists ms, mapM (sample1 mass2 (the_gen f er tr xrg yrg None) (total_flux f er tr)) ds = Ok ms /\
    Forall2 (fun d m => exists i j, (i < 200)%nat /\ (j < 200)%nat /\ selects f er tr (d_flux d * total_flux f er tr) (200 * i + j) /\
      let e := centre (energy_edge er) j in
      (e * e < mass2 -> m_p m = NaN) /\ (mass2 <= e * e -> exists p, m_p m = Fin p /\ 0 <= p /\ p * p = e * e - mass2)) ds ms).
  { induction HD as [|d ds (D1 & _) HD IH]; [exists []; split; [reflexivity|constructor]|]. destruct IH as (ms & E & F).
    destruct (sample_eq flux f er tr xrg yrg None mass2 HF d ltac:(lra)) as (k & Hk & E1). eexists (_ :: ms). cbn [mapM]. rewrite E1. cbn [bind]. rewrite E. split; [reflexivity|]. constructor; [|exact F].
    destruct (div200 k (proj1 Hk)) as [K1 K2]. exists (k / 200)%nat, (k mod 200)%nat. split; [exact K1|]. split; [exact K2|]. rewrite <- Nat.div_mod by discriminate. split; [exact Hk|].
    cbn [m_p]. cbn zeta. set (e := centre (energy_edge er) (k mod 200)). split; intros L.
    - unfold xsqrt. destruct (Rlt_dec (e * e - mass2) 0); [reflexivity|lra].
    - rewrite xsqrt_fin by lra. eexists. split; [reflexivity|]. split; [apply sqrt_pos|]. apply sqrt_sqrt. lra. }
  destruct H2 as (ms & E & F). exists ms. split; [apply new_eq; [lra|lra|exact HF]|]. split; assumption.
Qed.
Print Assumptions C106_momentum.
Example C106_case : exists f, flux_ok flux2016 f (1 / 20, 500) (0, 70 * PI / 180) /\
  let e := centre (energy_edge (1 / 20, 500)) 0 in e * e < 0.10565837 * 0.10565837.
Proof.
  destruct (C64_models flux2016 (1 / 20, 500) (0, 70 * PI / 180)) as (f & Hf); cbn [fst snd]; [auto|lra| | |]; try (pose proof PI_RGT_0; lra).
  exists f. split; [exact Hf|]. cbn zeta. assert (H : 0 < centre (energy_edge (1 / 20, 500)) 0 < 1 / 10); [|nra].
  unfold centre. rewrite energy_edge_0. pose proof (energy_edge_pos (1 / 20, 500) 1 ltac:(cbn; lra)). cbn [fst]. split; [lra|].
  unfold energy_edge. cbn [fst snd]. replace (500 / (1 / 20)) with 10000 by lra. replace (INR 1) with 1 by reflexivity.
  assert (HX : Rpower 10000 (1 / 200) < 2); [|lra].
  apply Rlt_trans with (Rpower (Rpower 2 14) (1 / 200)).
  - apply Rlt_Rpower_l; [lra|]. split; [lra|]. replace 14 with (INR 14) by (rewrite INR_IZR_INZ; reflexivity). rewrite Rpower_pow by lra. lra.
  - rewrite Rpower_mult. rewrite <- (Rpower_1 2) at 2 by lra. apply Rpower_lt; lra.
Qed.
