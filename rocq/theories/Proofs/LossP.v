(* The budget term, mixtures, integer class loss. *)
From Coq Require Import Lia Lra ZArith Permutation Ranalysis.
From Verif Require Import Base.RUtil Base.XR Base.Res Model.Utils Model.Loss Spec.LossSpec.
Open Scope R_scope.
Open Scope list_scope.

(* ---- gluing derivatives ---- *)
Lemma glue_lim (g h1 h2 : R -> R) x l : derivable_pt_lim h1 x l -> derivable_pt_lim h2 x l -> h1 x = g x -> h2 x = g x ->
  (forall y, g y = h1 y \/ g y = h2 y) -> derivable_pt_lim g x l.
Proof.
  intros D1 D2 E1 E2 H eps He. destruct (D1 eps He) as [d1 H1]. destruct (D2 eps He) as [d2 H2].
  assert (Hd : 0 < Rmin d1 d2) by (apply Rmin_pos; apply cond_pos). exists (mkposreal _ Hd). cbn. intros h Hh Hl.
  pose proof (Rmin_l d1 d2). pose proof (Rmin_r d1 d2). destruct (H (x + h)) as [-> | ->].
  - rewrite <- E1. apply H1; [assumption|lra].
  - rewrite <- E2. apply H2; [assumption|lra].
Qed.
Lemma loc_lim (g h : R -> R) x l r : 0 < r -> derivable_pt_lim h x l -> (forall y, Rabs (y - x) < r -> g y = h y) -> derivable_pt_lim g x l.
Proof.
  intros Hr D H eps He. destruct (D eps He) as [d H1]. assert (Hd : 0 < Rmin d r) by (apply Rmin_pos; [apply cond_pos|assumption]).
  exists (mkposreal _ Hd). cbn. intros k Hk Hl. pose proof (Rmin_l d r). pose proof (Rmin_r d r).
  rewrite (H (x + k)), (H x); [apply H1; [assumption|lra]| |].
  - rewrite Rminus_diag_eq, Rabs_R0 by reflexivity. assumption.
  - replace (x + k - x) with k by ring. lra.
Qed.
Lemma sigmoid_pos x : 0 < sigmoid x < 1.
Proof.
  unfold sigmoid. pose proof (exp_pos (- x)). split; [apply Rdiv_lt_0_compat; lra|]. apply (Rmult_lt_reg_r (1 + exp (- x))); [lra|].
  unfold Rdiv. rewrite Rmult_assoc, Rinv_l by lra. lra.
Qed.
Lemma sigmoid_0 : sigmoid 0 = 1 / 2.
Proof. unfold sigmoid. rewrite Ropp_0, exp_0. lra. Qed.
Lemma sigmoid_incr x y : x < y -> sigmoid x < sigmoid y.
Proof.
  intros H. unfold sigmoid, Rdiv. rewrite !Rmult_1_l. pose proof (exp_pos (- x)). pose proof (exp_pos (- y)). pose proof (exp_increasing (- y) (- x) ltac:(lra)).
  apply Rinv_lt_contravar; [apply Rmult_lt_0_compat; lra|lra].
Qed.
Lemma sigmoid_lim x : derivable_pt_lim sigmoid x (sigmoid x * (1 - sigmoid x)).
Proof.
  assert (D : derivable_pt_lim (fun y => exp (- y)) x (exp (- x) * -1)).
  { apply (derivable_pt_lim_comp Ropp exp); [apply derivable_pt_lim_opp, derivable_pt_lim_id|apply derivable_pt_lim_exp]. }
  pose proof (exp_pos (- x)) as HE.
  pose proof (derivable_pt_lim_div (fun _ => 1) (fun y => 1 + exp (- y)) x 0 (0 + exp (- x) * -1) (derivable_pt_lim_const 1 x)
    (derivable_pt_lim_plus (fun _ => 1) _ x _ _ (derivable_pt_lim_const 1 x) D) ltac:(cbn; lra)) as H.
  unfold div_fct in H. replace (sigmoid x * (1 - sigmoid x)) with ((0 * (1 + exp (- x)) - (0 + exp (- x) * -1) * 1) / Rsqr (1 + exp (- x))); [exact H|].
  unfold sigmoid, Rsqr. field. lra.
Qed.
Lemma sigmoid_cont : continuity sigmoid.
Proof. intros x. apply derivable_continuous_pt. exists (sigmoid x * (1 - sigmoid x)). apply sigmoid_lim. Qed.

(* ---- the steep budget term, as a function of the relative excess ---- *)
Definition steep_term (d : R) : R := if Rle_dec d 0 then 2 * sigmoid d else 1 + d / 2.
Definition steep_slope (d : R) : R := let m := (d - Rabs d) / 2 in 2 * (sigmoid m * (1 - sigmoid m)).
Lemma half_neg d : d <= 0 -> (d - Rabs d) / 2 = d. Proof. intros H. rewrite Rabs_left1 by lra. lra. Qed.
Lemma half_pos d : 0 <= d -> (d - Rabs d) / 2 = 0. Proof. intros H. rewrite Rabs_right by lra. lra. Qed.
Lemma steep_lim d : derivable_pt_lim steep_term d (steep_slope d).
Proof.
  assert (D1 : forall x, derivable_pt_lim (fun y => 2 * sigmoid y) x (2 * (sigmoid x * (1 - sigmoid x)))).
  { intros x. apply (derivable_pt_lim_scal sigmoid 2). apply sigmoid_lim. }
  assert (D2 : forall x, derivable_pt_lim (fun y => 1 + y / 2) x (1 / 2)).
  { intros x. replace (1 / 2) with (0 + 1 / 2) by lra. apply (derivable_pt_lim_plus (fun _ => 1) (fun y => y / 2)); [apply derivable_pt_lim_const|].
    apply (loc_lim _ (fun y => / 2 * id y) x (1 / 2) 1); [lra| |intros; unfold id; lra]. replace (1 / 2) with (/ 2 * 1) by lra. apply (derivable_pt_lim_scal id (/ 2)). apply derivable_pt_lim_id. }
  unfold steep_slope. destruct (Rtotal_order d 0) as [H|[->|H]].
  - rewrite half_neg by lra. apply (loc_lim _ (fun y => 2 * sigmoid y) d _ (- d)); [lra|apply D1|]. intros y Hy. unfold steep_term. destruct (Rle_dec y 0); [reflexivity|].
    apply Rabs_def2 in Hy. lra.
  - rewrite half_neg by lra. apply (glue_lim _ (fun y => 2 * sigmoid y) (fun y => 1 + y / 2)).
    + apply D1.
    + rewrite sigmoid_0. replace (2 * (1 / 2 * (1 - 1 / 2))) with (1 / 2) by lra. apply D2.
    + unfold steep_term. destruct (Rle_dec 0 0); [reflexivity|lra].
    + unfold steep_term. destruct (Rle_dec 0 0); [|lra]. rewrite sigmoid_0. lra.
    + intros y. unfold steep_term. destruct (Rle_dec y 0); auto.
  - rewrite half_pos by lra. rewrite sigmoid_0. replace (2 * (1 / 2 * (1 - 1 / 2))) with (1 / 2) by lra.
    apply (loc_lim _ (fun y => 1 + y / 2) d _ d); [lra|apply D2|]. intros y Hy. unfold steep_term. destruct (Rle_dec y 0); [|reflexivity]. apply Rabs_def2 in Hy. lra.
Qed.
Lemma steep_cont : continuity steep_slope.
Proof.
  intros x. unfold steep_slope.
  assert (C : continuity_pt (fun d => (d - Rabs d) / 2) x).
  { apply (continuity_pt_mult (fun d => d - Rabs d) (fun _ => / 2)); [|apply continuity_pt_const; now intros ? ?].
    apply (continuity_pt_minus id Rabs); [apply derivable_continuous_pt, derivable_pt_id|apply Rcontinuity_abs]. }
  assert (C2 : continuity_pt (fun d => sigmoid ((d - Rabs d) / 2)) x) by (apply (continuity_pt_comp (fun d => (d - Rabs d) / 2) sigmoid); [exact C|apply sigmoid_cont]).
  apply (continuity_pt_scal (fun d => sigmoid ((d - Rabs d) / 2) * (1 - sigmoid ((d - Rabs d) / 2))) 2).
  apply (continuity_pt_mult (fun d => sigmoid ((d - Rabs d) / 2)) (fun d => 1 - sigmoid ((d - Rabs d) / 2))); [exact C2|].
  apply (continuity_pt_minus (fun _ => 1) (fun d => sigmoid ((d - Rabs d) / 2))); [apply continuity_pt_const; now intros ? ?|exact C2].
Qed.
Lemma steep_pos d : 0 < steep_term d.
Proof. unfold steep_term. pose proof (sigmoid_pos d). destruct (Rle_dec d 0); lra. Qed.
Lemma steep_incr d e : d < e -> steep_term d < steep_term e.
Proof.
  intros H. unfold steep_term. destruct (Rle_dec d 0), (Rle_dec e 0); try lra.
  - pose proof (sigmoid_incr d e H). lra.
  - assert (sigmoid d <= 1 / 2); [|lra]. rewrite <- sigmoid_0. destruct (Req_dec d 0) as [->|]; [lra|]. left. apply sigmoid_incr. lra.
Qed.
Lemma steep_0 : steep_term 0 = 1.
Proof. unfold steep_term. destruct (Rle_dec 0 0); [|lra]. rewrite sigmoid_0. lra. Qed.
Lemma steep_budget_eq t b c : t <> 0 -> budget_coef (Some t) b true (Fin c) = Fin (steep_term (b * (c - t) / t)).
Proof.
  intros Ht. unfold budget_coef. cbn [xsub xopp xadd xmul]. change (c + - t) with (c - t). rewrite xdiv_fin by assumption. cbn [xle]. unfold steep_term.
  destruct (Rleb_spec (b * (c - t) / t) 0) as [H|H]; destruct (Rle_dec (b * (c - t) / t) 0) as [H'|H']; try contradiction; [reflexivity|].
  rewrite xdiv_fin by lra. reflexivity.
Qed.
Definition mild_term (t b c : R) : R := 2 * sigmoid (b * (c - t) / t) + Rmax (c - t) 0 / t.
Lemma mild_budget_eq t b c : t <> 0 -> budget_coef (Some t) b false (Fin c) = Fin (mild_term t b c).
Proof. intros Ht. unfold budget_coef. cbn [xsub xopp xadd xmul xrelu]. change (c + - t) with (c - t). rewrite !xdiv_fin by assumption. reflexivity. Qed.

(* ---- sums ---- *)
Lemma xtotal_fin l : xtotal (map Fin l) = Fin (Rsum l).
Proof. induction l as [|a l IH]; [reflexivity|]. cbn [map xtotal fold_right Rsum]. fold (xtotal (map Fin l)). rewrite IH. reflexivity. Qed.
Lemma bcast_map {A B C D} e (f : A -> B -> C) (a : D -> A) (b : D -> B) m : bcast e f (map a m) (map b m) = Ok (map (fun p => f (a p) (b p)) m).
Proof.
  unfold bcast. rewrite !map_length, Nat.eqb_refl. f_equal. induction m as [|x m IH]; [reflexivity|]. cbn [map combine fst snd]. f_equal. exact IH.
Qed.
Lemma Rsum_perm {A} (f : A -> R) m m' : Permutation m m' -> Rsum (map f m) = Rsum (map f m').
Proof. induction 1; cbn [map Rsum]; lra. Qed.

(* ---- mixtures ---- *)
Notation x0s m := (map (fun p => Fin (p_x0 p)) m).
Notation rhos m := (map (fun p => Fin (p_rho p)) m).
Notation amounts m := (map (fun p => Fin (p_amount p)) m).
Lemma sum_pos (f : part -> R) m : m <> [] -> Forall (fun p => 0 < f p) m -> 0 < Rsum (map f m).
Proof.
  intros Hn F. apply Rsum_pos; [destruct m; [congruence|discriminate]|]. intros x Hx. apply in_map_iff in Hx as (p & <- & Hp). rewrite Forall_forall in F. auto.
Qed.
Lemma map_fin (f : part -> xr) (g : part -> R) m : (forall p, In p m -> f p = Fin (g p)) -> map f m = map Fin (map g m).
Proof. intros H. rewrite map_map. now apply map_ext_in. Qed.
Definition mass_x0 (m : list part) : R := total_of (fun p => p_amount p / p_rho p) m / total_of (fun p => p_amount p / (p_x0 p * p_rho p)) m.
Definition mass_rho (m : list part) : R := total_of p_amount m / total_of (fun p => p_amount p / p_rho p) m.
Lemma mass_eq m : sound m -> x0_from_mixture (x0s m) (rhos m) (Some (amounts m)) None = Ok (Fin (mass_x0 m), Fin (mass_rho m)).
Proof.
  intros [Hn F]. unfold x0_from_mixture. cbn [bind]. rewrite Forall_forall in F. 
  assert (HW : 0 < Rsum (map p_amount m)) by (apply sum_pos; [assumption|]; apply Forall_forall; intros p Hp; apply F, Hp).
  assert (HA : 0 < Rsum (map (fun p => p_amount p / (p_x0 p * p_rho p)) m)).
  { apply sum_pos; [assumption|]. apply Forall_forall. intros p Hp. destruct (F p Hp) as (A & B & C). apply Rdiv_lt_0_compat; [assumption|now apply Rmult_lt_0_compat]. }
  assert (HB : 0 < Rsum (map (fun p => p_amount p / p_rho p) m)).
  { apply sum_pos; [assumption|]. apply Forall_forall. intros p Hp. destruct (F p Hp) as (A & B & C). now apply Rdiv_lt_0_compat. }
  rewrite (map_fin (fun p => Fin (p_amount p)) p_amount) by reflexivity. rewrite xtotal_fin, map_map, map_map. set (W := Rsum (map p_amount m)) in *.
  rewrite bcast_map. cbn [bind xmul].
  rewrite (map_ext_in (fun x => xdiv (Fin (p_amount x)) (Fin W)) (fun x => Fin (p_amount x / W))) by (intros; apply xdiv_fin; lra).
  rewrite !bcast_map. cbn [bind].
  rewrite (map_fin _ (fun p => / W * (p_amount p / (p_x0 p * p_rho p)))).
  2: { intros p Hp. destruct (F p Hp) as (A & B & C). rewrite xdiv_fin by nra. f_equal. field. repeat split; lra. }
  rewrite (map_fin _ (fun p => / W * (p_amount p / p_rho p))).
  2: { intros p Hp. destruct (F p Hp) as (A & B & C). rewrite xdiv_fin by lra. f_equal. field. repeat split; lra. }
  rewrite !xtotal_fin, !Rsum_map_mult. unfold mass_x0, mass_rho, total_of.
  set (SA := Rsum (map (fun p => p_amount p / (p_x0 p * p_rho p)) m)) in *. set (SB := Rsum (map (fun p => p_amount p / p_rho p) m)) in *.
  assert (HI : 0 < / W) by now apply Rinv_0_lt_compat.
  assert (0 < / W * SA) by now apply Rmult_lt_0_compat. assert (0 < / W * SB) by now apply Rmult_lt_0_compat.
  rewrite (xdiv_fin 1 (/ W * SA)) by lra. rewrite (xdiv_fin 1 (/ W * SB)) by lra.
  assert (0 < 1 / (/ W * SB)) by (apply Rdiv_lt_0_compat; lra). rewrite xdiv_fin by lra. fold W. do 2 f_equal; f_equal; field; lra.
Qed.
Definition by_mass (m : list part) : list part := map (fun p => Part (p_x0 p) (p_rho p) (p_rho p * p_amount p)) m.
Lemma by_mass_sound m : sound m -> sound (by_mass m).
Proof.
  intros [Hn F]. split; [destruct m; [congruence|discriminate]|]. apply Forall_forall. intros p Hp. apply in_map_iff in Hp as (p' & <- & Hp). cbn.
  rewrite Forall_forall in F. destruct (F p' Hp) as (A & B & C). repeat split; try assumption. now apply Rmult_lt_0_compat.
Qed.
Lemma volume_eq_mass m : x0_from_mixture (x0s m) (rhos m) None (Some (amounts m)) = x0_from_mixture (x0s (by_mass m)) (rhos (by_mass m)) (Some (amounts (by_mass m))) None.
Proof. unfold x0_from_mixture. rewrite bcast_map. cbn [bind]. unfold by_mass. rewrite !map_map. cbn [p_x0 p_rho p_amount xmul]. reflexivity. Qed.
Lemma volume_x0 m : sound m -> mass_x0 (by_mass m) = total_of p_amount m / total_of (fun p => p_amount p / p_x0 p) m.
Proof.
  intros [Hn F]. rewrite Forall_forall in F. unfold mass_x0, total_of, by_mass. rewrite !map_map. cbn [p_x0 p_rho p_amount]. f_equal; apply Rsum_map_ext; intros p Hp;
    destruct (F p Hp) as (A & B & C); field; lra.
Qed.
Lemma volume_rho m : sound m -> mass_rho (by_mass m) = total_of (fun p => p_amount p * p_rho p) m / total_of p_amount m.
Proof.
  intros [Hn F]. rewrite Forall_forall in F. unfold mass_rho, total_of, by_mass. rewrite !map_map. cbn [p_x0 p_rho p_amount]. f_equal; apply Rsum_map_ext; intros p Hp;
    destruct (F p Hp) as (A & B & C); field; lra.
Qed.
(* a quotient of sums lies between the quotients of the terms *)
Lemma ratio_between (f g : part -> R) m lo hi : m <> [] -> Forall (fun p => 0 < g p /\ lo * g p <= f p <= hi * g p) m ->
  lo <= Rsum (map f m) / Rsum (map g m) <= hi.
Proof.
  intros Hn F. assert (HG : 0 < Rsum (map g m)) by (apply sum_pos; [assumption|]; eapply Forall_impl; [|exact F]; intros p H; apply H).
  rewrite Forall_forall in F. assert (L : lo * Rsum (map g m) <= Rsum (map f m)) by (rewrite <- Rsum_map_mult; apply Rsum_map_le; intros p Hp; apply F, Hp).
  assert (H : Rsum (map f m) <= hi * Rsum (map g m)) by (rewrite <- Rsum_map_mult; apply Rsum_map_le; intros p Hp; apply F, Hp).
  split; apply (Rmult_le_reg_r (Rsum (map g m))); try lra; unfold Rdiv; rewrite Rmult_assoc, Rinv_l by lra; lra.
Qed.
