(* Weighted averages and the X0 of one voxel. *)
From Coq Require Import Psatz Lia.
From Verif Require Import Model.X0Infer Spec.LayerSpec Spec.InferSpec Proofs.EffP.
Open Scope R_scope.
Open Scope list_scope.

Lemma map2_maps {A B C D} (f : B -> C -> D) (g : A -> B) (h : A -> C) l : map2 f (map g l) (map h l) = map (fun a => f (g a) (h a)) l.
Proof. induction l; simpl; auto. f_equal. auto. Qed.
Lemma xsum_map {A} (f : A -> R) l : xsum (map (fun a => Fin (f a)) l) = Fin (Rsum (map f l)).
Proof. rewrite <- xsum_fin, map_map. reflexivity. Qed.

Lemma sum_w_pos l : weighable l -> 0 < Rsum (map snd l).
Proof.
  intros [H (v & w & I & P)]. induction l as [|[a b] l IH]; [destruct I|]. cbn [map Rsum snd].
  assert (0 <= Rsum (map snd l)) as N by (apply Rsum_nonneg; intros x Hx; apply in_map_iff in Hx as ((v' & w') & <- & I'); apply (H v'); right; auto).
  pose proof (H a b (or_introl eq_refl)). destruct I as [I|I]; [injection I as -> ->; lra|].
  enough (0 < Rsum (map snd l)) by lra. apply IH; auto. intros. apply (H v0). right; auto.
Qed.
Definition avg (f : R -> R) (l : list (R * R)) : R := Rsum (map (fun vw => f (fst vw) * snd vw) l) / Rsum (map snd l).
Lemma avg_bounds f l lo hi : weighable l -> (forall v w, In (v, w) l -> 0 < w -> lo <= f v <= hi) -> lo <= avg f l <= hi.
Proof.
  intros W B. pose proof (sum_w_pos l W) as P. unfold avg.
  assert (forall c, c * Rsum (map snd l) = Rsum (map (fun vw : R * R => c * snd vw) l)) as E by (intro; symmetry; apply Rsum_map_mult).
  destruct W as [W _].
  assert (forall v w, In (v, w) l -> lo * w <= f v * w <= hi * w) as B'.
  { intros v w I. destruct (W v w I) as [Q|<-]; [|lra]. destruct (B v w I Q). split; apply Rmult_le_compat_r; lra. }
  split; [apply Rmult_le_reg_r with (1 := P)|apply Rmult_le_reg_r with (1 := P)]; unfold Rdiv; rewrite Rmult_assoc, Rinv_l, Rmult_1_r by lra; rewrite E;
    apply Rsum_map_le; intros [v w] I; apply (B' v w I).
Qed.
Lemma mean_avg l : weighable l -> weighted_mean (values l) (weights l) = Fin (avg (fun x => x) l).
Proof.
  intro W. pose proof (sum_w_pos l W) as P. unfold weighted_mean, values, weights. rewrite map2_maps.
  rewrite (xsum_map (fun a : R * R => fst a * snd a)), (xsum_map snd), xdiv_fin by lra. reflexivity.
Qed.
Lemma rms_avg l : weighable l -> weighted_rms (values l) (weights l) = Fin (sqrt (avg sq l)).
Proof.
  intro W. pose proof (sum_w_pos l W) as P. unfold weighted_rms, values, weights. rewrite map2_maps.
  rewrite (xsum_map (fun a : R * R => sq (fst a) * snd a)), (xsum_map snd), xdiv_fin by lra.
  fold (avg sq l). apply xsqrt_fin. destruct (avg_bounds sq l 0 (Rsum (map (fun vw => sq (fst vw)) l)) W); [|auto].
  intros v w I _. split; [apply sq_nonneg|]. clear - I. induction l as [|a l IH]; [destruct I|]. cbn [map Rsum].
  assert (0 <= Rsum (map (fun vw : R * R => sq (fst vw)) l)) by (apply Rsum_nonneg; intros x Hx; apply in_map_iff in Hx as (? & <- & _); apply sq_nonneg).
  destruct I as [->|I]; [cbn [fst]; lra|]. pose proof (IH I). pose proof (sq_nonneg (fst a)). lra.
Qed.
Lemma mean_bounds l : weighable l -> exists m, weighted_mean (values l) (weights l) = Fin m
  /\ forall lo hi, (forall v w, In (v, w) l -> 0 < w -> lo <= v <= hi) -> lo <= m <= hi.
Proof. intro W. eexists. split; [apply mean_avg, W|]. intros lo hi B. apply avg_bounds; auto. Qed.
Lemma rms_bounds l : weighable l -> exists m, weighted_rms (values l) (weights l) = Fin m /\ 0 <= m
  /\ forall lo hi, 0 <= lo -> (forall v w, In (v, w) l -> 0 < w -> lo <= Rabs v <= hi) -> lo <= m <= hi.
Proof.
  intro W. eexists. split; [apply rms_avg, W|]. split; [apply sqrt_pos|]. intros lo hi L B.
  assert (lo <= hi) as LH by (destruct W as [_ (v & w & I & P)]; destruct (B v w I P); lra).
  assert (forall v w, In (v, w) l -> 0 < w -> sq lo <= sq v <= sq hi) as B'.
  { intros v w I P. destruct (B v w I P) as [B1 B2]. unfold sq. replace (v * v) with (Rabs v * Rabs v) by (rewrite <- Rabs_mult; apply Rabs_right; pose proof (Rle_0_sqr v); unfold Rsqr in *; lra).
    split; apply Rmult_le_compat; auto; try lra; apply Rabs_pos. }
  destruct (avg_bounds sq l (sq lo) (sq hi) W B') as [A1 A2]. split.
  - rewrite <- (sqrt_square lo) by auto. apply sqrt_le_1_alt, A1.
  - rewrite <- (sqrt_square hi) by lra. apply sqrt_le_1_alt, A2.
Qed.
(* scaling of the weights, and weights that are zero *)
Lemma weighable_scale k l : 0 < k -> weighable l -> weighable (scale_weights k l).
Proof.
  intros K [H (v & w & I & P)]. split.
  - intros v' w' I'. apply in_map_iff in I' as ((a & b) & [= <- <-] & I'). cbn. apply Rmult_le_pos; [lra|]. eapply H; eauto.
  - exists v, (k * w). split; [apply in_map_iff; exists (v, w); auto|]. apply Rmult_lt_0_compat; auto.
Qed.
Lemma avg_scale f k l : 0 < k -> weighable l -> avg f (scale_weights k l) = avg f l.
Proof.
  intros K W. pose proof (sum_w_pos l W). unfold avg, scale_weights. rewrite !map_map. cbn [fst snd].
  rewrite (Rsum_map_ext (fun x : R * R => f (fst x) * (k * snd x)) (fun x => k * (f (fst x) * snd x))) by (intros; lra).
  rewrite !Rsum_map_mult. field. split; lra.
Qed.
Lemma weighable_counted l : weighable l -> weighable (counted l).
Proof.
  intros [H (v & w & I & P)]. split; [intros v' w' I'; apply filter_In in I' as [I' _]; eauto|].
  exists v, w. split; auto. apply filter_In. split; auto. apply Rltb_true; auto.
Qed.
Lemma sum_counted (g : R * R -> R) l : (forall v w, In (v, w) l -> 0 <= w) -> (forall v, g (v, 0) = 0) ->
  Rsum (map g (counted l)) = Rsum (map g l).
Proof.
  intros H G. induction l as [|[v w] l IH]; auto. unfold counted. cbn [filter map Rsum snd].
  pose proof (H v w (or_introl eq_refl)) as W. assert (Rsum (map g (counted l)) = Rsum (map g l)) as E by (apply IH; intros; eapply H; right; eauto).
  destruct (Rltb_spec 0 w) as [P|P]; cbn [map Rsum]; fold (counted l); rewrite E; [auto|]. replace w with 0 by lra. rewrite G. lra.
Qed.
Lemma avg_counted f l : weighable l -> avg f (counted l) = avg f l.
Proof. intros [H _]. unfold avg. rewrite !sum_counted by (auto; intros; cbn; lra). auto. Qed.
Lemma scale_same k l : 0 < k -> weighable l ->
  weighted_mean (values (scale_weights k l)) (weights (scale_weights k l)) = weighted_mean (values l) (weights l)
  /\ weighted_rms (values (scale_weights k l)) (weights (scale_weights k l)) = weighted_rms (values l) (weights l).
Proof. intros K W. pose proof (weighable_scale k l K W). rewrite !mean_avg, !rms_avg, !avg_scale by auto. auto. Qed.
Lemma counted_same l : weighable l ->
  weighted_mean (values (counted l)) (weights (counted l)) = weighted_mean (values l) (weights l)
  /\ weighted_rms (values (counted l)) (weights (counted l)) = weighted_rms (values l) (weights l).
Proof. intros W. pose proof (weighable_counted l W). rewrite !mean_avg, !rms_avg, !avg_counted by auto. auto. Qed.

(* ---- the law ---- *)
Lemma x0_fin dz t a b p : t <> 0 -> p <> 0 -> cos a + cos b <> 0 ->
  x0_from_scatters dz (Fin t) (Fin a) (Fin b) (Fin p) = Fin (x0_law dz t ((cos a + cos b) / 2) p).
Proof.
  intros T P C. unfold x0_from_scatters, xcos, xsquare. cbn [xfun xadd]. rewrite !xdiv_fin by (auto; lra). cbn [xmul].
  rewrite xdiv_fin. { reflexivity. }
  apply Rmult_integral_contrapositive_currified; [apply Rmult_integral_contrapositive_currified; auto|lra].
Qed.
Lemma law_inverts dz c p x0 : 0 < dz -> 0 < c -> 0 < p -> 0 < x0 -> x0_law dz (leading_width p (dz / c) x0) c p = x0.
Proof.
  intros D C P X. unfold x0_law, leading_width. set (k := 136 / 10000 / p).
  assert (k <> 0) as K by (unfold k; apply Rgt_not_eq, Rdiv_lt_0_compat; lra).
  assert (sq (k * sqrt (dz / c / x0)) = sq k * (dz / c / x0)) as ->.
  { unfold sq. replace (k * sqrt (dz / c / x0) * (k * sqrt (dz / c / x0))) with (k * k * (sqrt (dz / c / x0) * sqrt (dz / c / x0))) by ring.
    rewrite sqrt_sqrt; auto. left. apply Rdiv_lt_0_compat; auto. apply Rdiv_lt_0_compat; auto. }
  unfold sq. field. repeat split; lra.
Qed.
Lemma law_pos dz t c p : 0 < dz -> t <> 0 -> 0 < c -> p <> 0 -> 0 < x0_law dz t c p.
Proof.
  intros D T C P. unfold x0_law. assert (forall x, x <> 0 -> 0 < sq x) as S by (intros x H; apply Rlt_0_sqr, H).
  apply Rdiv_lt_0_compat; apply Rmult_lt_0_compat; auto. apply S. unfold Rdiv. apply Rmult_integral_contrapositive_currified; [lra|apply Rinv_neq_0_compat, P].
Qed.
Lemma law_scale dz t c p k : t <> 0 -> c <> 0 -> p <> 0 -> k <> 0 -> x0_law dz (k * t) c p = x0_law dz t c p / sq k.
Proof. intros. unfold x0_law, sq. field. auto. Qed.
Lemma law_mono dz t t' c c' p p' : 0 < dz -> 0 < t <= t' -> 0 < c <= c' -> 0 < p <= p' -> x0_law dz t' c' p' <= x0_law dz t c p.
Proof.
  intros D [T T'] [C C'] [P P']. unfold x0_law.
  assert (sq t * c <= sq t' * c') by (unfold sq; apply Rmult_le_compat; try lra; [apply Rmult_le_pos; lra|apply Rmult_le_compat; lra]).
  assert (0 < sq t * c) by (unfold sq; repeat apply Rmult_lt_0_compat; auto).
  assert (/ p' <= / p) by (apply Rinv_le_contravar; auto). assert (0 < / p') by (apply Rinv_0_lt_compat; lra).
  assert (0 <= 136 / 10000 / p' <= 136 / 10000 / p) as [K0 K] by (unfold Rdiv; split; [apply Rmult_le_pos; lra|apply Rmult_le_compat_l; lra]).
  unfold Rdiv at 1 3. apply Rmult_le_compat.
  - apply Rmult_le_pos; [apply sq_nonneg|lra].
  - left. apply Rinv_0_lt_compat. lra.
  - apply Rmult_le_compat_r; [lra|]. unfold sq. apply Rmult_le_compat; auto.
  - apply Rinv_le_contravar; auto.
Qed.

(* ---- one voxel ---- *)
Definition wgt (w v : R) : R := if Req_EM_T v 0 then (if Rlt_dec 0 w then fmax else 0) else w / v.
Lemma fmax_pos : 0 < fmax.
Proof.
  unfold fmax. apply Rmult_lt_0_compat; [|apply pow_lt; lra].
  assert (/ 2 ^ 23 < 1); [|lra]. rewrite <- Rinv_1. apply Rinv_lt_contravar; [rewrite Rmult_1_l; apply pow_lt; lra|apply Rlt_pow_R1; [lra|lia]].
Qed.
Lemma wgt_fin w v : 0 <= w -> nan_to_num (xdiv (Fin w) (Fin v)) = Fin (wgt w v).
Proof.
  intro W. unfold wgt. cbn [xdiv]. destruct (Req_EM_T v 0); [|reflexivity]. unfold inf_of_sign.
  destruct (Rlt_dec 0 w); [reflexivity|]. destruct (Rlt_dec w 0); [lra|reflexivity].
Qed.
Lemma wgt_nonneg w v : 0 <= w -> 0 <= v -> 0 <= wgt w v.
Proof.
  intros W V. unfold wgt. pose proof fmax_pos. destruct (Req_EM_T v 0); [destruct (Rlt_dec 0 w); lra|].
  unfold Rdiv. apply Rmult_le_pos; auto. left. apply Rinv_0_lt_compat. lra.
Qed.
Lemma wgt_pos w v : 0 < w -> 0 <= v -> 0 < wgt w v.
Proof.
  intros W V. unfold wgt. pose proof fmax_pos. destruct (Req_EM_T v 0); [destruct (Rlt_dec 0 w); lra|].
  apply Rdiv_lt_0_compat; lra.
Qed.
Lemma wgt_zero v : wgt 0 v = 0.
Proof. unfold wgt. destruct (Req_EM_T v 0); [destruct (Rlt_dec 0 0); lra|lra]. Qed.

Section Voxel.
Variables (ms : list used_muon) (x u : used_muon -> R).
Hypothesis U : useful ms.
Definition wts (v : used_muon -> R) : list (R * R) := map (fun m => (x m, wgt (w_eff m * w_prob m) (v m))) ms.
Lemma wts_weighable v : (forall m, 0 <= v m) -> weighable (wts v).
Proof.
  intro V. destruct U as [H (m & I & E)]. split.
  - intros a b J. apply in_map_iff in J as (m' & [= <- <-] & J). destruct (H m' J). apply wgt_nonneg; [apply Rmult_le_pos; lra|auto].
  - exists (x m), (wgt (w_eff m * w_prob m) (v m)). split; [apply in_map_iff; eauto|]. apply wgt_pos; auto. apply Rmult_lt_0_compat; auto. apply H, I.
Qed.
Lemma wts_rms v :
  weighted_rms (map (fun m => Fin (x m)) ms) (var_weights (map2 xmul (map (fun m => Fin (w_eff m)) ms) (map (fun m => Fin (w_prob m)) ms)) (map (fun m => Fin (v m)) ms))
  = weighted_rms (values (wts v)) (weights (wts v)).
Proof.
  unfold values, weights, wts, var_weights. rewrite !map_map, !map2_maps. cbn [fst snd]. f_equal. apply map_ext_in. intros m I. cbn [xmul].
  apply wgt_fin. destruct U as [H _]. destruct (H m I). apply Rmult_le_pos; lra.
Qed.
Lemma voxel_rms v lo hi : (forall m, 0 <= v m) -> 0 <= lo -> (forall m, In m ms -> 0 < w_eff m -> lo <= x m <= hi) ->
  exists r, weighted_rms (map (fun m => Fin (x m)) ms) (var_weights (map2 xmul (map (fun m => Fin (w_eff m)) ms) (map (fun m => Fin (w_prob m)) ms)) (map (fun m => Fin (v m)) ms)) = Fin r
  /\ lo <= r <= hi.
Proof.
  intros V L B. rewrite wts_rms. destruct (rms_bounds (wts v) (wts_weighable v V)) as (r & E & _ & R). exists r. split; auto. apply R; auto.
  intros a b J P. apply in_map_iff in J as (m & [= <- <-] & J). destruct U as [H _]. destruct (H m J) as [[E0|E0] Q].
  - destruct (B m J E0). rewrite Rabs_right by lra. lra.
  - exfalso. rewrite <- E0, Rmult_0_l, wgt_zero in P. lra.
Qed.
End Voxel.
Lemma col_vars k f ms : (forall m, nth k (var_row m) NaN = Fin (f m)) -> col k (map var_row ms) = map (fun m => Fin (f m)) ms.
Proof. intro H. unfold col. rewrite map_map. apply map_ext. auto. Qed.
Lemma col_uncs k f ms : (forall m, nth k (unc_row m) NaN = Fin (f m)) -> col k (map unc_row ms) = map (fun m => Fin (f m)) ms.
Proof. intro H. unfold col. rewrite map_map. apply map_ext. auto. Qed.
Lemma sq_var_map f g ms : map2 sq_var (map (fun m : used_muon => Fin (f m)) ms) (map (fun m => Fin (g m)) ms) = map (fun m => Fin (sq (2 * f m * g m))) ms.
Proof. rewrite map2_maps. reflexivity. Qed.

Lemma voxel_between dz ms t1 t2 c1 c2 a1 a2 b1 b2 p1 p2 : 0 < dz -> useful ms ->
  0 < t1 -> 0 < p1 -> 0 <= a1 -> a2 <= PI -> 0 <= b1 -> b2 <= PI -> c1 = (cos a2 + cos b2) / 2 -> c2 = (cos a1 + cos b1) / 2 -> 0 < c1 ->
  (forall m, In m ms -> 0 < w_eff m -> t1 <= w_tot m <= t2 /\ a1 <= w_in m <= a2 /\ b1 <= w_out m <= b2 /\ p1 <= w_mom m <= p2) ->
  exists x0, predicted dz ms = Fin x0 /\ x0_law dz (t2 / sqrt 2) c2 p2 <= x0 <= x0_law dz (t1 / sqrt 2) c1 p1.
Proof.
  intros D U T P A1 A2 B1 B2 Ec1 Ec2 C B. unfold predicted, voxel_x0.
  assert (forall k f, (forall m, nth k (var_row m) NaN = Fin (f m)) -> col k (map var_row ms) = map (fun m => Fin (f m)) ms) as Cv by (intros; apply col_vars; auto).
  assert (forall k f, (forall m, nth k (unc_row m) NaN = Fin (f m)) -> col k (map unc_row ms) = map (fun m => Fin (f m)) ms) as Cu by (intros; apply col_uncs; auto).
  assert (forall m, exists x y z, xl3 m = [Fin x; Fin y; Fin z]) as X3 by (intros [[x y] z]; cbn; eauto).
  assert (forall m k, nth (3 + k) (var_row m) NaN = nth k [Fin (w_tot m); Fin (w_in m); Fin (w_out m); Fin (w_mom m)] NaN) as Nv.
  { intros m k. unfold var_row. destruct (X3 (w_poca m)) as (x & y & z & ->). reflexivity. }
  assert (forall m k, nth (3 + k) (unc_row m) NaN = nth k [Fin (w_tot_u m); Fin (w_in_u m); Fin (w_out_u m); Fin 0] NaN) as Nu.
  { intros m k. unfold unc_row. destruct (X3 (w_poca_u m)) as (x & y & z & ->). reflexivity. }
  rewrite (Cv 3%nat w_tot (fun m => Nv m 0%nat)), (Cv 4%nat w_in (fun m => Nv m 1%nat)), (Cv 5%nat w_out (fun m => Nv m 2%nat)), (Cv 6%nat w_mom (fun m => Nv m 3%nat)).
  rewrite (Cu 3%nat w_tot_u (fun m => Nu m 0%nat)), (Cu 4%nat w_in_u (fun m => Nu m 1%nat)), (Cu 5%nat w_out_u (fun m => Nu m 2%nat)), (Cu 6%nat (fun _ => 0) (fun m => Nu m 3%nat)).
  rewrite !sq_var_map.
  assert (forallb (fun v => xeq v (Fin 0)) (map (fun m => Fin (sq (2 * w_mom m * 0))) ms) = true) as ->.
  { apply forallb_forall. intros v I. apply in_map_iff in I as (m & <- & _). cbn [xeq]. apply Reqb_true. unfold sq. lra. }
  rewrite (map_map (fun m => Fin (sq (2 * w_mom m * 0))) (fun _ => Fin 1)).
  destruct (voxel_rms ms w_tot U (fun m => sq (2 * w_tot m * w_tot_u m)) t1 t2) as (rt & -> & Rt); [intro; apply sq_nonneg|lra|intros; apply B; auto|].
  destruct (voxel_rms ms w_in U (fun m => sq (2 * w_in m * w_in_u m)) a1 a2) as (ra & -> & Ra); [intro; apply sq_nonneg|lra|intros; apply B; auto|].
  destruct (voxel_rms ms w_out U (fun m => sq (2 * w_out m * w_out_u m)) b1 b2) as (rb & -> & Rb); [intro; apply sq_nonneg|lra|intros; apply B; auto|].
  destruct (voxel_rms ms w_mom U (fun m => 1) p1 p2) as (rp & -> & Rp); [intro; lra|lra|intros; apply B; auto|].
  assert (0 < sqrt 2) as S2 by (apply sqrt_lt_R0; lra). rewrite xdiv_fin by lra.
  assert (cos a2 <= cos ra <= cos a1) by (split; apply cos_decr_1; lra).
  assert (cos b2 <= cos rb <= cos b1) by (split; apply cos_decr_1; lra).
  assert (t1 / sqrt 2 <= rt / sqrt 2 <= t2 / sqrt 2) by (unfold Rdiv; split; apply Rmult_le_compat_r; try lra; left; apply Rinv_0_lt_compat; lra).
  assert (0 < t1 / sqrt 2) by (apply Rdiv_lt_0_compat; lra).
  eexists. split; [apply x0_fin; lra|]. split; apply law_mono; lra.
Qed.
Lemma voxel_exact dz ms a b p x0 : 0 < dz -> useful ms -> 0 < p -> 0 < x0 -> 0 <= a <= PI -> 0 <= b <= PI -> 0 < cos a + cos b ->
  (forall m, In m ms -> 0 < w_eff m -> w_tot m = sqrt 2 * leading_width p (dz / ((cos a + cos b) / 2)) x0 /\ w_in m = a /\ w_out m = b /\ w_mom m = p) ->
  predicted dz ms = Fin x0.
Proof.
  intros D U P X A B C E. assert (0 < sqrt 2) as S2 by (apply sqrt_lt_R0; lra). set (c := (cos a + cos b) / 2) in *. assert (0 < c) by (unfold c; lra).
  assert (0 < leading_width p (dz / c) x0) as W.
  { unfold leading_width. apply Rmult_lt_0_compat; [apply Rdiv_lt_0_compat; lra|]. apply sqrt_lt_R0. apply Rdiv_lt_0_compat; auto. apply Rdiv_lt_0_compat; auto. }
  set (t := sqrt 2 * leading_width p (dz / c) x0) in *. assert (0 < t) by (apply Rmult_lt_0_compat; auto).
  destruct (voxel_between dz ms t t c c a a b b p p) as (r & -> & L); auto; try lra.
  { intros m I H1. destruct (E m I H1) as (-> & -> & -> & ->). lra. }
  f_equal. replace (t / sqrt 2) with (leading_width p (dz / c) x0) in L by (unfold t; field; lra). rewrite law_inverts in L by auto. lra.
Qed.
(* nothing to average over *)
Lemma voxel_nothing dz ms : (forall m, In m ms -> w_eff m = 0) -> predicted dz ms = NaN.
Proof.
  intro Z. unfold predicted, voxel_x0.
  assert (forall m k, nth (3 + k) (var_row m) NaN = nth k [Fin (w_tot m); Fin (w_in m); Fin (w_out m); Fin (w_mom m)] NaN) as Nv.
  { intros m k. unfold var_row. destruct (w_poca m) as [[x y] z]. reflexivity. }
  assert (forall m k, nth (3 + k) (unc_row m) NaN = nth k [Fin (w_tot_u m); Fin (w_in_u m); Fin (w_out_u m); Fin 0] NaN) as Nu.
  { intros m k. unfold unc_row. destruct (w_poca_u m) as [[x y] z]. reflexivity. }
  rewrite (col_vars 3 w_tot ms (fun m => Nv m 0%nat)), (col_uncs 3 w_tot_u ms (fun m => Nu m 0%nat)), sq_var_map.
  match goal with |- context [weighted_rms (map (fun m => Fin (w_tot m)) ms) ?w] => assert (w = map (fun m => Fin 0) ms) as -> end.
  { unfold var_weights. rewrite !map2_maps. apply map_ext_in. intros m I. cbn [xmul]. rewrite (Z m I), Rmult_0_l, wgt_fin, wgt_zero by lra. reflexivity. }
  unfold weighted_rms at 1. rewrite map2_maps, (xsum_map (fun m => sq (w_tot m) * 0)), (xsum_map (fun _ => 0)).
  assert (Rsum (map (fun _ : used_muon => 0) ms) = 0) as -> by (rewrite Rsum_const; lra).
  assert (Rsum (map (fun m => sq (w_tot m) * 0) ms) = 0) as ->.
  { rewrite (Rsum_map_ext _ (fun _ => 0)) by (intros; lra). rewrite Rsum_const. lra. }
  assert (xdiv (Fin 0) (Fin 0) = NaN) as ->.
  { cbn [xdiv]. destruct (Req_EM_T 0 0); [|lra]. unfold inf_of_sign. destruct (Rlt_dec 0 0); [lra|reflexivity]. }
  unfold x0_from_scatters. cbn [xsqrt xdiv xsquare]. change (xsquare NaN) with NaN.
  match goal with |- xdiv ?a (xmul NaN ?b) = NaN => destruct a; reflexivity end.
Qed.
