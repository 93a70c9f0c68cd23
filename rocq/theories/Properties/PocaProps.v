(* Property C108: the PoCA-based inferrer of the fill level. *)
From Coq Require Import Psatz Lia ZArith Permutation.
From Verif Require Import Model.Ladle Model.PocaZ Spec.InferSpec Spec.PocaSpec Proofs.EffP Proofs.InferStateP Proofs.CombineP Proofs.LadleP Proofs.BlockP Proofs.LorryP Proofs.PocaP.
From Verif Require Import Properties.InferProps Properties.LadleProps.
Open Scope R_scope.
Open Scope list_scope.

(* C108. Whatever the order of additions, questions and values given to smooth, every answer is the one of a new inferrer that was given the
   same batches and asked only this.  Only the prediction goes on with an older value of smooth: see pquestions. *)
Theorem C108_reads_fresh :
  forall cdf lw size smooth ops l,
  (forall v, In (PAdd (Ok v)) ops -> exists ms a b, v = view ms /\ forall k, In k ms -> panels_of k (a k) (b k)) ->
  poca_session cdf lw size smooth ops = Ok l -> Forall2 (fresh_answer cdf lw size) (pquestions ops [] smooth None) l.
Proof.
  intros cdf lw size smooth ops l H E. unfold poca_session, set_smooth in E. destruct (Rltb_spec 0 smooth) as [P|]; [|discriminate]. cbn [bind] in E. injection E as <-. fold (W lw size smooth).
  destruct (pinteract_known cdf lw size ops [] smooth None new_inf) as [-> F]; auto.
  - discriminate.
  - change new_inf with (given []). constructor. intros y c Q. discriminate Q.
  - intros v [].
  - intros v I. destruct (H v I) as (ms & a & b & -> & K). exists (map (fun k => Fin (prob_two (a k) * prob_two (b k))) ms). split; [apply effs_panels; exact K|]. cbn [view s_poca]. now rewrite !map_length.
  - induction F as [|q qs Hq F IH]; cbn [map]; constructor; [|exact IH]. destruct q as [|bs x r]; [reflexivity|]. destruct Hq. cbn [fresh_answer known_q]. now apply fresh_given.
Qed.
Print Assumptions C108_reads_fresh.

(* C108. The prediction: the height of the muons of all batches whose PoCA and uncertainty are numbers.  The other muons, and what else the
   batches hold, do not count. *)
Theorem C108_prediction :
  forall cdf lw size smooth gw a b bss,
  set_smooth lw size smooth = Ok gw -> bss <> [] -> (forall k, In k (concat bss) -> panels_of k (a k) (b k)) ->
  poca_session cdf lw size smooth (padds bss ++ [PAsk PPred])
  = Ok [rmap (fun h => AVec [h]) (height_pred cdf lw size gw (map (as_seen a b) (filter poca_numbers (concat bss))))].
Proof.
  intros cdf lw size smooth gw a b bss E N H. unfold set_smooth in E. destruct (Rltb_spec 0 smooth) as [P|]; [|discriminate]. injection E as <-. fold (W lw size smooth).
  rewrite (session_value cdf lw size smooth (fun k => Fin (prob_two (a k) * prob_two (b k))) bss P N).
  2: { intros ms I. apply effs_panels. intros k J. apply H. apply in_concat. eauto. }
  do 2 f_equal. unfold height_pred. rewrite map_map. cbn [as_seen sn_eff].
  rewrite (height_map cdf lw size (W lw size smooth) smuon (fun k => Seen (nums (k_poca k)) (nums (k_poca_u k)) 0)), (height_map cdf lw size (W lw size smooth) smuon (as_seen a b)).
  unfold rmap. change (sw_bad cdf lw size (W lw size smooth) smuon (fun k => Seen (nums (k_poca k)) (nums (k_poca_u k)) 0)) with (sw_bad cdf lw size (W lw size smooth) smuon (as_seen a b)).
  change (sw_of cdf lw size (W lw size smooth) smuon (fun k => Seen (nums (k_poca k)) (nums (k_poca_u k)) 0)) with (sw_of cdf lw size (W lw size smooth) smuon (as_seen a b)).
  reflexivity.
Qed.
Print Assumptions C108_prediction.

(* C108. Neither the order of the muons, nor how they are spread over batches, nor muons without a PoCA change the prediction. *)
Theorem C108_order :
  forall cdf lw size smooth a b bss bss',
  (forall k, In k (concat bss ++ concat bss') -> panels_of k (a k) (b k)) -> bss <> [] -> bss' <> [] ->
  Permutation (filter poca_numbers (concat bss)) (filter poca_numbers (concat bss')) ->
  poca_session cdf lw size smooth (padds bss ++ [PAsk PPred]) = poca_session cdf lw size smooth (padds bss' ++ [PAsk PPred]).
Proof.
  intros cdf lw size smooth a b bss bss' H N N' P. destruct (set_smooth lw size smooth) as [gw|e] eqn:E; [|unfold poca_session; now rewrite E].
  rewrite (C108_prediction cdf lw size smooth gw a b bss), (C108_prediction cdf lw size smooth gw a b bss'); auto; try (intros k I; apply H; apply in_or_app; auto).
  do 3 f_equal. unfold height_pred. rewrite !map_map. now apply height_perm.
Qed.
Print Assumptions C108_order.

(* C108. Without any muon that counts there is no prediction but an exception; without any batch there is none at all. *)
Theorem C108_nothing :
  forall cdf lw size smooth a b bss,
  0 < smooth -> (forall k, In k (concat bss) -> panels_of k (a k) (b k)) -> Forall (fun k => poca_numbers k = false) (concat bss) ->
  poca_session cdf lw size smooth (padds bss ++ [PAsk PPred]) = Ok [match bss with [] => Ok ANone | _ => Err RuntimeError end].
Proof.
  intros cdf lw size smooth a b bss P H F. assert (E : exists gw, set_smooth lw size smooth = Ok gw) by (unfold set_smooth; destruct (Rltb_spec 0 smooth); [eauto|lra]). destruct E as [gw E].
  destruct bss as [|ms bss]; [unfold poca_session; rewrite E; reflexivity|]. rewrite (C108_prediction cdf lw size smooth gw a b (ms :: bss) E); [|discriminate|exact H].
  replace (filter poca_numbers (concat (ms :: bss))) with (@nil smuon); [|].
  { unfold height_pred, height_with. cbn [map mapM bind]. unfold xkth at 1. cbn [length Z.of_nat]. set (q := quantile_index 0.15865 0). destruct (Z.leb_spec 1 q), (Z.leb_spec q 0); try reflexivity. lia. }
  clear H. symmetry. induction F as [|k l K F IH]; [reflexivity|]. cbn [filter]. rewrite K. exact IH.
Qed.
Print Assumptions C108_nothing.

(* C108. With uncertainties and efficiencies that are positive, the prediction is a number among the heights of the PoCAs. *)
Theorem C108_range :
  forall cdf lw size smooth a b bss lo hi,
  (forall p u x y, 0 < u -> x < y -> cdf p u x < cdf p u y) -> 0 < size -> size <= fst lw -> size <= snd lw -> 0 < smooth ->
  (forall k, In k (concat bss) -> panels_of k (a k) (b k)) -> Exists (fun k => poca_numbers k = true) (concat bss) ->
  (forall k, In k (concat bss) -> poca_numbers k = true ->
     let '(ux, uy, uz) := nums (k_poca_u k) in 0 < ux /\ 0 < uy /\ 0 < uz /\ 0 < prob_two (a k) * prob_two (b k)) ->
  (forall k, In k (concat bss) -> poca_numbers k = true -> lo <= snd (nums (k_poca k)) <= hi) ->
  exists h, poca_session cdf lw size smooth (padds bss ++ [PAsk PPred]) = Ok [Ok (AVec [Fin h])] /\ lo <= h <= hi.
Proof.
  intros cdf lw size smooth a b bss lo hi C S0 S1 S2 P H X U Z.
  assert (E : exists gw, set_smooth lw size smooth = Ok gw) by (unfold set_smooth; destruct (Rltb_spec 0 smooth); [eauto|lra]). destruct E as [gw E].
  set (kept := filter poca_numbers (concat bss)). assert (NK : map (as_seen a b) kept <> []).
  { apply Exists_exists in X as (k & I & K). assert (J : In k kept) by (apply filter_In; auto). destruct kept; [destruct J|discriminate]. }
  destruct (C84_height cdf lw size smooth gw (map (as_seen a b) kept) C S0 S1 S2 E NK) as (h & Eh & R & _).
  { apply Forall_forall. intros m I. apply in_map_iff in I as (k & <- & I). apply filter_In in I as [I K]. specialize (U k I K). cbn [as_seen sn_unc sn_eff]. exact U. }
  exists h. split.
  - rewrite (C108_prediction cdf lw size smooth gw a b bss E); [|intros Q; subst bss; apply Exists_nil in X; exact X|exact H]. fold kept. rewrite Eh. reflexivity.
  - apply R. apply Forall_forall. intros m I. apply in_map_iff in I as (k & <- & I). apply filter_In in I as [I K]. exact (Z k I K).
Qed.
Print Assumptions C108_range.

(* --- an example --- *)
Definition side_muon (x z : R) : smuon :=
  SMuon (Fin x, Fin (3 / 2), Fin z) (Fin 1, Fin 1, Fin 1) (Fin 0) (Fin 0) (Fin 0) (Fin 0) (Fin 0) (Fin 0) (Fin 1) [Fin 1; Fin 1] [Fin 1; Fin 1].
Lemma side_panels x z : panels_of (side_muon x z) [1; 1] [1; 1].
Proof. split; [reflexivity|]; split; [reflexivity|]; cbn; split; [lia|]; split; [lia|]; unfold probability; split; repeat constructor; lra. Qed.
Example C108_case :
  exists h, poca_session (fun p u x => Rsigmoid ((x - p) / u)) (3, 3) 1 1 (padds [[side_muon 1 (1 / 4)]; [lost_muon; side_muon 2 (3 / 4)]] ++ [PAsk PPred]) = Ok [Ok (AVec [Fin h])] /\ 1 / 4 <= h <= 3 / 4.
Proof.
  apply (C108_range _ (3, 3) 1 1 (fun _ => [1; 1]) (fun _ => [1; 1])); cbn [fst snd]; try lra.
  - intros p u x y Hu H. apply BlockP.sigmoid_incr. unfold Rdiv. apply Rmult_lt_compat_r; [now apply Rinv_0_lt_compat|lra].
  - intros k [<- | [<- | [<- | []]]]; [apply side_panels|apply perfect; cbn; auto|apply side_panels].
  - constructor. reflexivity.
  - intros k [<- | [<- | [<- | []]]] K; try discriminate K; cbn -[prob_two]; rewrite two_perfect; lra.
  - intros k [<- | [<- | [<- | []]]] K; try discriminate K; cbn; lra.
Qed.

(* C108 for smooth is false: a new value of smooth does not change the prediction of an inferrer that has been asked for one. *)
Lemma npix3 : n_pix (3, 3) 1 = 3%nat.
Proof. unfold n_pix. cbn [fst]. replace (3 / 1) with (IZR 3) by field. now rewrite LorryP.long_int by lia. Qed.
Lemma points3 a : points a (3 - 1 + a) 3 = [a; a + 1; a + 2].
Proof. unfold points. cbn [seq map]. refine (f_equal2 cons _ (f_equal2 cons _ (f_equal2 cons _ eq_refl))); cbn [INR Nat.sub]; field. Qed.
Lemma edges3 : xy_edges (3, 3) 1 = list_prod [0; 1; 2] [0; 1; 2].
Proof. unfold xy_edges. rewrite npix3. cbn [fst snd]. replace (3 - 1) with (3 - 1 + 0) by ring. rewrite points3. now replace (0 + 1) with 1 by ring; replace (0 + 2) with 2 by ring. Qed.
Lemma centres3 : xy_centres (3, 3) 1 = list_prod [1 / 2; 3 / 2; 5 / 2] [1 / 2; 3 / 2; 5 / 2].
Proof. unfold xy_centres. rewrite npix3. cbn [fst snd]. replace (3 - 1 / 2) with (3 - 1 + 1 / 2) by field. rewrite points3. now replace (1 / 2 + 1) with (3 / 2) by field; replace (1 / 2 + 2) with (5 / 2) by field. Qed.
(* smooth such that exp (- 1 / (3 smooth)) = y *)
Definition smooth_of (y : R) : R := / (3 * - ln y).
Lemma side_weight y : 0 < y < 1 -> 0 < smooth_of y /\ sig_model (smooth_of y) 3 (3 / 2) = 1 /\ sig_model (smooth_of y) 3 (1 / 2) = 1 - y + y * y.
Proof.
  intros Hy. assert (L : ln y < 0) by (rewrite <- ln_1; apply ln_increasing; lra). assert (P : 0 < smooth_of y) by (unfold smooth_of; apply Rinv_0_lt_compat; lra).
  split; [exact P|]. unfold sig_model. cbv zeta.
  replace ((3 / 2 - 3 / 2) / (3 / 2)) with 0 by field. rewrite Rabs_R0, Rminus_0_r. replace ((1 / 2 - 3 / 2) / (3 / 2)) with (- (2 / 3)) by field. rewrite Rabs_left by lra.
  replace ((1 - - - (2 / 3)) / smooth_of y) with (- ln y) by (unfold smooth_of; field; lra). replace (1 / smooth_of y) with (- (ln y + ln y + ln y)) by (unfold smooth_of; field; lra).
  unfold Rsigmoid. rewrite !Ropp_involutive, !exp_plus, !exp_ln by lra. split; [field; nra|]. field. nra.
Qed.
Lemma side_sig y z : 0 < y < 1 -> let gw := W (3, 3) 1 (smooth_of y) in
  sig_weight step_cdf (3, 3) 1 gw (as_seen (fun _ => [1; 1]) (fun _ => [1; 1]) (side_muon (3 / 2) z)) = Ok 1 /\
  sig_weight step_cdf (3, 3) 1 gw (as_seen (fun _ => [1; 1]) (fun _ => [1; 1]) (side_muon (1 / 2) z)) = Ok (1 - 2 * y + 2 * (y * y)).
Proof.
  intros Hy gw. destruct (side_weight y Hy) as (P & S1 & S2). unfold gw, W. rewrite centres3.
  unfold sig_weight. cbn -[Rsum xy_edges pixel_weight list_prod pixel_prob]. destruct (Rltb_spec 0 1); [|lra]. cbn [andb]. rewrite edges3. split; f_equal.
  1: assert (Q : pixel_weight (smooth_of y) (3, 3) (3 / 2, 3 / 2) = 1) by (unfold pixel_weight; cbn [fst snd]; rewrite S1; field).
  2: assert (Q : pixel_weight (smooth_of y) (3, 3) (1 / 2, 3 / 2) = 1 - 2 * y + 2 * (y * y)) by (unfold pixel_weight; cbn [fst snd]; rewrite S1, S2; field).
  all: cbn -[pixel_weight step_cdf]; unfold step_cdf; repeat match goal with |- context [Rlt_dec ?u ?v] => destruct (Rlt_dec u v); try (exfalso; lra) end; rewrite Q; ring.
Qed.
Lemma side_height y : 0 < y < 1 -> 2 * (y * y) <= 2 * y -> height_pred step_cdf (3, 3) 1 (W (3, 3) 1 (smooth_of y)) (map (as_seen (fun _ => [1; 1]) (fun _ => [1; 1])) [side_muon (3 / 2) 0; side_muon (1 / 2) 1])
  = Ok (Fin ((1 - 2 * y + 2 * (y * y)) / (2 - 2 * y + 2 * (y * y)))).
Proof.
  intros Hy H2. set (f := 1 - 2 * y + 2 * (y * y)). assert (Hf : 0 < f <= 1) by (unfold f; nra).
  assert (Q1 : quantile_index 0.15865 2 = 1%Z). { unfold quantile_index, round_even. change (Z.of_nat 2 - 1)%Z with 1%Z. rewrite (Rfloor_unique (0.15865 * 1) 0) by lra. destruct (Rltb_spec (0.15865 * 1 - 0) (1 / 2)); [|lra]. reflexivity. }
  assert (Q2 : quantile_index 0.84135 2 = 2%Z). { unfold quantile_index, round_even. change (Z.of_nat 2 - 1)%Z with 1%Z. rewrite (Rfloor_unique (0.84135 * 1) 0) by lra. destruct (Rltb_spec (0.84135 * 1 - 0) (1 / 2)); [lra|]. destruct (Rltb_spec (1 / 2) (0.84135 * 1 - 0)); [|lra]. reflexivity. }
  unfold height_pred, height_with. cbn [map mapM]. rewrite (proj1 (side_sig y 0 Hy)), (proj2 (side_sig y 1 Hy)). fold f. cbn [bind length]. rewrite Q1, Q2.
  cbn [as_seen side_muon sn_unc sn_eff sn_poca k_poca k_poca_u nums num snd]. rewrite two_perfect.
  assert (K : forall k, (1 <= k <= 2)%Z -> xkth k [Fin 1; Fin 1] = Ok (Fin 1)).
  { intros k Hk. destruct (xkth_in k [Fin 1; Fin 1]) as (x & -> & I); [exact Hk|]. cbn in I. f_equal. intuition. }
  rewrite !K by lia. cbn [bind]. rewrite xclip_fin, Rmax_left, Rmin_left by lra. cbn [combine map2 fst snd xmul]. rewrite !xdiv_fin by lra.
  replace (1 * (1 * 1) / (1 * 1)) with 1 by field. replace (f * (1 * 1) / (1 * 1)) with f by field.
  assert (K2 : xkth 2 [Fin 1; Fin f] = Ok (Fin 1)).
  { unfold xkth. change ((1 <=? 2)%Z && (2 <=? Z.of_nat (length [Fin 1; Fin f]))%Z) with true. cbv iota. unfold xsort. cbn [fold_right xinsert]. unfold xbefore. cbn [xisnan orb xle]. unfold Rleb. destruct (Rle_dec 1 f) as [G|G]; [|reflexivity]. assert (Ef : f = 1) by lra. change (Ok (Fin f) = Ok (Fin 1)). now rewrite Ef. }
  rewrite K2. cbn [bind map]. rewrite !xclip_fin. rewrite !Rmax_left, !Rmin_left by lra. cbn [map2 xmul xtotal fold_right xadd]. rewrite xdiv_fin by lra. do 2 f_equal. replace (2 - 2 * y + 2 * (y * y)) with (1 + (f + 0)) by (unfold f; ring). cbn [as_seen side_muon sn_poca k_poca nums num snd]. f_equal; ring.
Qed.
Theorem C108_smooth_refuted :
  exists cdf lw size s x bss a b,
  is_cdf cdf /\ 0 < s /\ 0 < x /\ (forall k, In k (concat bss) -> panels_of k [1; 1] [1; 1]) /\
  poca_session cdf lw size s (padds bss ++ [PAsk PPred; PSmooth x; PAsk PPred]) = Ok [a; a] /\
  poca_session cdf lw size s (padds bss ++ [PSmooth x; PAsk PPred]) = Ok [b] /\
  poca_session cdf lw size x (padds bss ++ [PAsk PPred]) = Ok [b] /\ a <> b.
Proof.
  assert (Y2 : 0 < / 2 < 1) by lra. assert (Y4 : 0 < / 4 < 1) by lra.
  pose proof (side_weight _ Y2) as (P2 & _). pose proof (side_weight _ Y4) as (P4 & _).
  set (bss := [[side_muon (3 / 2) 0; side_muon (1 / 2) 1]]).
  assert (PN : forall k, In k (concat bss) -> panels_of k [1; 1] [1; 1]) by (intros k [<- | [<- | []]]; apply side_panels).
  assert (V : forall y, 0 < y < 1 -> 2 * (y * y) <= 2 * y -> poca_session step_cdf (3, 3) 1 (smooth_of y) (padds bss ++ [PAsk PPred]) = Ok [Ok (AVec [Fin ((1 - 2 * y + 2 * (y * y)) / (2 - 2 * y + 2 * (y * y)))])]).
  { intros y Hy H2. pose proof (side_weight _ Hy) as (P & _). assert (E : set_smooth (3, 3) 1 (smooth_of y) = Ok (W (3, 3) 1 (smooth_of y))) by (unfold set_smooth; destruct (Rltb_spec 0 (smooth_of y)); [reflexivity|lra]).
    rewrite (C108_prediction step_cdf (3, 3) 1 (smooth_of y) _ (fun _ => [1; 1]) (fun _ => [1; 1]) bss E); [|discriminate|exact PN].
    change (filter poca_numbers (concat bss)) with [side_muon (3 / 2) 0; side_muon (1 / 2) 1]. rewrite side_height by assumption. reflexivity. }
  pose proof (V (/ 2) Y2 ltac:(lra)) as V2. pose proof (V (/ 4) Y4 ltac:(lra)) as V4.
  set (a := Ok (AVec [Fin ((1 - 2 * / 2 + 2 * (/ 2 * / 2)) / (2 - 2 * / 2 + 2 * (/ 2 * / 2)))])) in *. set (b := Ok (AVec [Fin ((1 - 2 * / 4 + 2 * (/ 4 * / 4)) / (2 - 2 * / 4 + 2 * (/ 4 * / 4)))])) in *.
  exists step_cdf, (3, 3), 1, (smooth_of (/ 2)), (smooth_of (/ 4)), bss, a, b.
  split; [exact step_is_cdf|]. split; [exact P2|]. split; [exact P4|]. split; [exact PN|].
  assert (HV : forall rest v, In (PAdd (Ok v)) (padds bss ++ rest) -> (forall v, ~ In (PAdd v) rest) -> exists ms a b, v = view ms /\ forall k, In k ms -> panels_of k (a k) (b k)).
  { intros rest v I NR. apply in_app_or in I as [I|I]; [|destruct (NR _ I)]. destruct I as [[= <-]|[]]. exists [side_muon (3 / 2) 0; side_muon (1 / 2) 1], (fun _ => [1; 1]), (fun _ => [1; 1]). split; [reflexivity|]. intros k I. apply PN. exact I. }
  assert (SE : forall y ops, 0 < smooth_of y -> exists l, poca_session step_cdf (3, 3) 1 (smooth_of y) ops = Ok l) by (intros y ops P; unfold poca_session, set_smooth; destruct (Rltb_spec 0 (smooth_of y)); [cbn [bind]; eauto|lra]).
  split; [|split; [|split; [exact V4|]]].
  - destruct (SE (/ 2) (padds bss ++ [PAsk PPred; PSmooth (smooth_of (/ 4)); PAsk PPred]) P2) as [l El]. rewrite El.
    assert (NR : forall w, ~ In (PAdd w) [PAsk PPred; PSmooth (smooth_of (/ 4)); PAsk PPred]) by (intros w I; cbn in I; repeat destruct I as [I|I]; (discriminate I || exact I)).
    pose proof (C108_reads_fresh _ _ _ _ _ _ (fun v I => HV _ v I NR) El) as F. cbn [padds map bss app pquestions] in F. destruct (Rlt_dec 0 (smooth_of (/ 4))); [|lra].
    inversion F as [|q1 a1 qs1 l1 F1 F']; subst. inversion F' as [|q2 a2 qs2 l2 F2 F'']; subst. inversion F''; subst. unfold fresh_answer in F1, F2.
    change (map PAdd [Ok (view [side_muon (3 / 2) 0; side_muon (1 / 2) 1])]) with (padds bss) in F1, F2. change (map PAdd ([] ++ [Ok (view [side_muon (3 / 2) 0; side_muon (1 / 2) 1])])) with (padds bss) in F1, F2.
    rewrite V2 in F1, F2. congruence.
  - destruct (SE (/ 2) (padds bss ++ [PSmooth (smooth_of (/ 4)); PAsk PPred]) P2) as [l El]. rewrite El.
    assert (NR : forall w, ~ In (PAdd w) [PSmooth (smooth_of (/ 4)); PAsk PPred]) by (intros w I; cbn in I; repeat destruct I as [I|I]; (discriminate I || exact I)).
    pose proof (C108_reads_fresh _ _ _ _ _ _ (fun v I => HV _ v I NR) El) as F. cbn [padds map bss app pquestions] in F. destruct (Rlt_dec 0 (smooth_of (/ 4))); [|lra].
    inversion F as [|q1 a1 qs1 l1 F1 F']; subst. inversion F'; subst. unfold fresh_answer in F1.
    change (map PAdd [Ok (view [side_muon (3 / 2) 0; side_muon (1 / 2) 1])]) with (padds bss) in F1.
    rewrite V4 in F1. congruence.
  - unfold a, b. intros [= Q]. lra.
Qed.
Print Assumptions C108_smooth_refuted.
