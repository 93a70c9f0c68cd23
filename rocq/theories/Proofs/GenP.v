Require Import Reals Lra Lia.
From Verif Require Import Model.Generation Spec.GenSpec.
Open Scope R_scope.
Open Scope list_scope.

Lemma removelast_map {A B} (f : A -> B) l : removelast (map f l) = map f (removelast l).
Proof. induction l as [|a l IH]; [reflexivity|]. destruct l; [reflexivity|]. cbn [map]. cbn [map] in IH. change (removelast (f a :: f a0 :: map f l)) with (f a :: removelast (f a0 :: map f l)). rewrite IH. reflexivity. Qed.
Lemma removelast_seq n : removelast (seq 0 (n + 1)) = seq 0 n.
Proof. rewrite Nat.add_1_r, seq_S. apply removelast_last. Qed.
Lemma combine_map2 {A B C} (f : A -> B) (g : A -> C) l : combine (map f l) (map g l) = map (fun a => (f a, g a)) l.
Proof. induction l; cbn; congruence. Qed.
Lemma centres_eq f n : centres (map f (seq 0 (n + 1))) = map (centre f) (seq 0 n).
Proof.
  unfold centres. rewrite removelast_map, removelast_seq. rewrite Nat.add_1_r. cbn [seq map tl]. rewrite <- seq_shift, map_map, combine_map2, map_map. reflexivity.
Qed.
Lemma flat_seq {B} (g : nat -> nat -> B) m n : (0 < m)%nat -> flat_map (fun i => map (g i) (seq 0 m)) (seq 0 n) = map (fun k => g (k / m)%nat (k mod m)%nat) (seq 0 (n * m)).
Proof.
  intros Hm. induction n as [|n IH]; [reflexivity|]. rewrite seq_S, flat_map_app, IH. replace (S n * m)%nat with (n * m + m)%nat by lia. rewrite seq_app, map_app. f_equal. cbn [flat_map plus]. rewrite app_nil_r.
  enough (H : forall k a, (a + k <= m)%nat -> map (g n) (seq a k) = map (fun k0 => g (k0 / m)%nat (k0 mod m)%nat) (seq (n * m + a) k)) by (specialize (H m 0%nat); rewrite Nat.add_0_r in H; apply H; lia).
  induction k as [|k IHk]; intros a H; [reflexivity|]. cbn [seq map]. rewrite (IHk (S a)) by lia. rewrite Nat.add_succ_r. f_equal.
  rewrite Nat.add_comm, Nat.div_add, Nat.mod_add, Nat.div_small, Nat.mod_small by lia. reflexivity.
Qed.
Lemma cumsum_len s l : length (cumsum_from s l) = length l.
Proof. revert s. induction l; intros; cbn; auto. Qed.
Lemma cumsum_last l s d : l <> [] -> last (cumsum_from (Fin s) (map Fin l)) d = Fin (s + Rsum l).
Proof.
  revert s. induction l as [|x l IH]; intros s H; [congruence|]. cbn [map cumsum_from xadd]. destruct l as [|y l]; [cbn; f_equal; ring|].
  transitivity (last (cumsum_from (Fin (s + x)) (map Fin (y :: l))) d); [reflexivity|]. rewrite IH by discriminate. f_equal. cbn [Rsum]. ring.
Qed.
Lemma search_spec l s u : l <> [] -> u <= s + Rsum l ->
  let k := searchsorted (cumsum_from (Fin s) (map Fin l)) u in
  (k < length l)%nat /\ (k = 0%nat \/ s + Rsum (firstn k l) < u) /\ u <= s + Rsum (firstn k l) + nth k l 0.
Proof.
  revert s. induction l as [|x l IH]; intros s Hn Hu; [congruence|]. cbn [map cumsum_from xadd searchsorted xlt]. cbn [Rsum] in Hu. destruct (Rltb_spec (s + x) u) as [L|L].
  - destruct l as [|y l]; [cbn in Hu; lra|]. destruct (IH (s + x) ltac:(discriminate) ltac:(lra)) as (A & B & C). set (k := searchsorted _ _) in *. cbn zeta. split; [cbn [length] in *; lia|]. split.
    + right. change (firstn (S k) (x :: y :: l)) with (x :: firstn k (y :: l)). cbn [Rsum]. destruct B as [B|B]; [rewrite B; cbn [firstn Rsum]; lra|lra].
    + change (firstn (S k) (x :: y :: l)) with (x :: firstn k (y :: l)). change (nth (S k) (x :: y :: l) 0) with (nth k (y :: l) 0). cbn [Rsum]. lra.
  - cbn zeta. split; [cbn; lia|]. split; [auto|]. cbn [firstn Rsum nth]. lra.
Qed.
Lemma firstn_seq k n : (k <= n)%nat -> firstn k (seq 0 n) = seq 0 k.
Proof. intros H. replace n with (k + (n - k))%nat by lia. rewrite seq_app, firstn_app, seq_length, Nat.sub_diag. cbn [firstn]. rewrite app_nil_r. rewrite <- (seq_length k 0) at 1. apply firstn_all. Qed.
Lemma get_seq {A} (f : nat -> A) n i : (i < n)%nat -> get (map f (seq 0 n)) i = Ok (f i).
Proof.
  intros H. unfold get. destruct (nth_error (map f (seq 0 n)) i) eqn:E.
  - f_equal. apply (nth_error_nth _ _ (f 0%nat)) in E. rewrite map_nth, seq_nth in E by exact H. exact (eq_sym E).
  - apply nth_error_None in E. rewrite map_length, seq_length in E. lia.
Qed.
Lemma INR200 : INR 200 = 200. Proof. rewrite INR_IZR_INZ. reflexivity. Qed.

Section G.
Variables (flux : R -> R -> xr) (f : R -> R -> R) (er tr : R * R) (xr_ yr : R * R) (mom : option R) (mass2 : R).
Hypotheses (He : 0 < fst er) (He' : 0 < snd er) (HF : flux_ok flux f er tr).
Definition the_gen : generator :=
  Gen xr_ yr mom (map (centre (energy_edge er)) (seq 0 200)) (map (centre (theta_edge tr)) (seq 0 200)) (cumsum (map Fin (map (cell_flux f er tr) (seq 0 (200 * 200))))).
Lemma div200 k : (k < 200 * 200)%nat -> (k / 200 < 200)%nat /\ (k mod 200 < 200)%nat.
Proof. intros H. split; [apply Nat.div_lt_upper_bound; lia|apply Nat.mod_upper_bound; lia]. Qed.
Lemma new_eq : new_generator flux xr_ yr mom er tr = Ok the_gen.
Proof.
  unfold new_generator, geomspace. destruct (Reqb_spec (fst er) 0); [lra|]. destruct (Reqb_spec (snd er) 0); [lra|]. cbn [orb bind]. unfold n_bins_energy, n_bins_theta, linspace. rewrite INR200.
  change (map (fun i => fst er * Rpower (snd er / fst er) (INR i / 200)) (seq 0 (200 + 1))) with (map (energy_edge er) (seq 0 (200 + 1))).
  change (map (fun i => fst tr + INR i / 200 * (snd tr - fst tr)) (seq 0 (200 + 1))) with (map (theta_edge tr) (seq 0 (200 + 1))).
  rewrite !centres_eq. unfold the_gen. do 3 f_equal.
  transitivity (flat_map (fun j => map (fun i => flux (centre (energy_edge er) i) (centre (theta_edge tr) j)) (seq 0 200)) (seq 0 200)).
  - rewrite flat_map_concat_map, map_map, <- flat_map_concat_map. apply flat_map_ext. intros j. now rewrite map_map.
  - rewrite (flat_seq (fun j i => flux (centre (energy_edge er) i) (centre (theta_edge tr) j)) 200 200) by lia. rewrite map_map. apply map_ext_in. intros k Hk. apply in_seq in Hk.
    destruct (div200 k) as [A B]; [lia|]. apply HF; assumption.
Qed.
Definition the_genN N : generator :=
  Gen xr_ yr mom (map (centre (energy_edge er)) (seq 0 200)) (map (centre (theta_edge tr)) (seq 0 200)) (cumsum (map Fin (map (cell_flux f er tr) (seq 0 N)))).
Lemma cells_len N : length (map (cell_flux f er tr) (seq 0 N)) = N.
Proof. now rewrite map_length, seq_length. Qed.
Lemma sample_eqN N d : (forall k, (k < N)%nat -> (k / 200 < 200)%nat /\ (k mod 200 < 200)%nat) -> (0 < N)%nat -> 0 < flux_before f er tr N -> 0 <= d_flux d <= 1 ->
  exists k, ((k < N)%nat /\ (k = 0%nat \/ flux_before f er tr k < d_flux d * flux_before f er tr N) /\ d_flux d * flux_before f er tr N <= flux_before f er tr k + cell_flux f er tr k) /\
    sample1 mass2 (the_genN N) (flux_before f er tr N) d = Ok (Row (uniform (fst xr_) (snd xr_) (d_x d)) (uniform (fst yr) (snd yr) (d_y d))
      (match mom with None => let e := centre (energy_edge er) (k mod 200) in xsqrt (Fin (e * e - mass2)) | Some p => Fin p end)
      (centre (theta_edge tr) (k / 200)) (uniform 0 (2 * PI) (d_phi d))).
Proof.
  intros HD HN HT Hd. unfold sample1. cbn [g_cum the_genN g_mom g_energy g_theta g_x g_y].
  assert (Hne : map (cell_flux f er tr) (seq 0 N) <> []). { intros E. pose proof (cells_len N) as H. rewrite E in H. cbn [length] in H. lia. }
  assert (Hu : uniform 0 (flux_before f er tr N) (d_flux d) = d_flux d * flux_before f er tr N) by (unfold uniform; ring). rewrite Hu.
  unfold cumsum. destruct (search_spec (map (cell_flux f er tr) (seq 0 N)) 0 (d_flux d * flux_before f er tr N) Hne) as (A & B & C).
  { fold (flux_before f er tr N). nra. }
  set (k := searchsorted _ _) in *. rewrite cells_len in A. rewrite Rplus_0_l in B, C. rewrite firstn_map, firstn_seq in B, C by lia.
  rewrite (nth_indep _ 0 (cell_flux f er tr 0)) in C by (rewrite cells_len; exact A). rewrite map_nth, seq_nth in C by exact A. cbn [plus] in C.
  exists k. split; [repeat split; assumption|]. destruct (HD k A) as [K1 K2]. unfold n_bins_energy. rewrite !get_seq by assumption. destruct mom; reflexivity.
Qed.
Lemma sample_eq d : 0 <= d_flux d <= 1 ->
  exists k, selects f er tr (d_flux d * total_flux f er tr) k /\
    sample1 mass2 the_gen (total_flux f er tr) d = Ok (Row (uniform (fst xr_) (snd xr_) (d_x d)) (uniform (fst yr) (snd yr) (d_y d))
      (match mom with None => let e := centre (energy_edge er) (k mod 200) in xsqrt (Fin (e * e - mass2)) | Some p => Fin p end)
      (centre (theta_edge tr) (k / 200)) (uniform 0 (2 * PI) (d_phi d))).
Proof. exact (fun Hd => sample_eqN (200 * 200) d div200 (proj1 (Nat.ltb_lt 0 (200 * 200)) eq_refl) (proj2 HF) Hd). Qed.
Lemma gen_eqN N ds : (0 < N)%nat -> generate_set mass2 (the_genN N) ds = mapM (sample1 mass2 (the_genN N) (flux_before f er tr N)) ds.
Proof.
  intros HN. unfold generate_set. cbn [g_cum the_genN].
  assert (Hne : map (cell_flux f er tr) (seq 0 N) <> []). { intros E. pose proof (cells_len N) as H. rewrite E in H. cbn [length] in H. lia. }
  assert (Hc : forall {A} (e : A) g, match cumsum (map Fin (map (cell_flux f er tr) (seq 0 N))) with [] => e | _ => g end = g).
  { intros A e g. destruct (cumsum _) eqn:E; [|reflexivity]. apply (f_equal (@length xr)) in E. unfold cumsum in E. rewrite cumsum_len, map_length, cells_len in E. cbn [length] in E. lia. }
  rewrite Hc. unfold cumsum. rewrite cumsum_last by exact Hne. rewrite Rplus_0_l. reflexivity.
Qed.
Lemma gen_eq ds : generate_set mass2 the_gen ds = mapM (sample1 mass2 the_gen (total_flux f er tr)) ds.
Proof. exact (gen_eqN (200 * 200) ds (proj1 (Nat.ltb_lt 0 (200 * 200)) eq_refl)). Qed.
End G.
Lemma before_mono f er tr : (forall k, (k < 200 * 200)%nat -> 0 <= cell_flux f er tr k) -> forall m n, (m <= n <= 200 * 200)%nat -> flux_before f er tr m <= flux_before f er tr n.
Proof.
  intros H m n Hmn. unfold flux_before. replace n with (m + (n - m))%nat by lia. rewrite seq_app, map_app, Rsum_app. cbn [plus].
  assert (0 <= Rsum (map (cell_flux f er tr) (seq m (n - m)))); [|lra]. apply Rsum_nonneg. intros x Hx. apply in_map_iff in Hx as (k & <- & Hk). apply in_seq in Hk. apply H. lia.
Qed.
Lemma before_S f er tr k : flux_before f er tr (S k) = flux_before f er tr k + cell_flux f er tr k.
Proof. unfold flux_before. rewrite seq_S, map_app, Rsum_app. cbn [map Rsum plus]. ring. Qed.
Lemma selects_unique f er tr u k k' : (forall k, (k < 200 * 200)%nat -> 0 <= cell_flux f er tr k) -> selects f er tr u k -> selects f er tr u k' -> k = k'.
Proof.
  intros H. assert (W : forall k k', selects f er tr u k -> selects f er tr u k' -> ~ (k < k')%nat).
  { intros a b (A1 & A2 & A3) (B1 & B2 & B3) L. rewrite <- before_S in A3. pose proof (before_mono f er tr H (S a) b ltac:(lia)). destruct B2 as [B2|B2]; [lia|lra]. }
  intros A B. destruct (Nat.lt_trichotomy k k') as [L|[L|L]]; [exfalso; exact (W k k' A B L)|exact L|exfalso; exact (W k' k B A L)].
Qed.

Lemma theta_edge_le tr i j : fst tr <= snd tr -> (i <= j)%nat -> theta_edge tr i <= theta_edge tr j.
Proof. intros H L. unfold theta_edge. apply le_INR in L. assert (INR i / 200 <= INR j / 200) by lra. nra. Qed.
Lemma theta_edge_lt tr i j : fst tr < snd tr -> (i < j)%nat -> theta_edge tr i < theta_edge tr j.
Proof. intros H L. unfold theta_edge. apply lt_INR in L. assert (INR i / 200 < INR j / 200) by lra. nra. Qed.
Lemma theta_edge_0 tr : theta_edge tr 0 = fst tr. Proof. unfold theta_edge. cbn [INR]. lra. Qed.
Lemma theta_edge_200 tr : theta_edge tr 200 = snd tr. Proof. unfold theta_edge. rewrite INR200. lra. Qed.
Lemma energy_edge_pos er i : 0 < fst er -> 0 < energy_edge er i.
Proof. intros H. unfold energy_edge. apply Rmult_lt_0_compat; [exact H|]. unfold Rpower. apply exp_pos. Qed.
Lemma energy_edge_0 er : energy_edge er 0 = fst er. Proof. unfold energy_edge. cbn [INR]. unfold Rdiv at 2. rewrite Rmult_0_l. unfold Rpower. rewrite Rmult_0_l, exp_0. ring. Qed.
Lemma energy_edge_200 er : 0 < fst er -> 0 < snd er -> energy_edge er 200 = snd er.
Proof. intros H H'. unfold energy_edge. rewrite INR200. replace (200 / 200) with 1 by lra. rewrite Rpower_1; [field; lra|]. now apply Rdiv_lt_0_compat. Qed.
Lemma energy_edge_le er i j : 0 < fst er <= snd er -> (i <= j)%nat -> energy_edge er i <= energy_edge er j.
Proof.
  intros [H H'] L. unfold energy_edge. apply Rmult_le_compat_l; [lra|]. apply le_INR in L. unfold Rpower.
  assert (HL : 0 <= ln (snd er / fst er)). { rewrite <- ln_1. assert (1 <= snd er / fst er) by (apply (Rmult_le_reg_r (fst er)); [exact H|]; unfold Rdiv; rewrite Rmult_assoc, Rinv_l by lra; lra). destruct (Req_dec 1 (snd er / fst er)) as [E|E]; [rewrite <- E; lra|]. left. apply ln_increasing; lra. }
  assert (HE : INR i / 200 * ln (snd er / fst er) <= INR j / 200 * ln (snd er / fst er)) by (apply Rmult_le_compat_r; lra).
  destruct (Req_dec (INR i / 200 * ln (snd er / fst er)) (INR j / 200 * ln (snd er / fst er))) as [E|E]; [rewrite E; lra|]. left. apply exp_increasing. lra.
Qed.
Lemma centre_between edge i : (forall a b, (a <= b)%nat -> edge a <= edge b) -> (i < 200)%nat -> edge 0%nat <= centre edge i <= edge 200%nat.
Proof. intros H Hi. unfold centre. pose proof (H 0%nat i ltac:(lia)). pose proof (H i (S i) ltac:(lia)). pose proof (H (S i) 200%nat ltac:(lia)). lra. Qed.
Lemma centre_strict edge i : (forall a b, (a < b)%nat -> edge a < edge b) -> (i < 200)%nat -> edge 0%nat < centre edge i < edge 200%nat.
Proof.
  intros H Hi. unfold centre. pose proof (H i (S i) ltac:(lia)). assert (edge 0%nat <= edge i) by (destruct i; [lra|]; left; apply H; lia).
  assert (edge (S i) <= edge 200%nat) by (destruct (Nat.eq_dec (S i) 200) as [E|E]; [rewrite E; lra|]; left; apply H; lia). lra.
Qed.

Lemma xpow_pos x e : 0 < x -> xpow (Fin x) e = Fin (Rpower x e).
Proof. intros H. cbn. destruct (Rlt_dec 0 x); [reflexivity|lra]. Qed.
Lemma Rpower_pos x e : 0 < Rpower x e. Proof. unfold Rpower. apply exp_pos. Qed.
Lemma Rpower_le_base x a b : 0 < x <= 1 -> b <= a -> Rpower x a <= Rpower x b.
Proof.
  intros [H0 H1] Hab. unfold Rpower. assert (HL : ln x <= 0). { destruct (Rle_lt_or_eq_dec x 1 H1) as [L|E]; [left; rewrite <- ln_1; now apply ln_increasing|subst; rewrite ln_1; lra]. }
  assert (a * ln x <= b * ln x) by nra. destruct (Req_dec (a * ln x) (b * ln x)) as [E|E]; [rewrite E; lra|]. left. apply exp_increasing. lra.
Qed.
Lemma arg2015_pos c : 0 < c <= 1 -> 0 < c * c + P1 * P1 + P2 * Rpower c P3 + P4 * Rpower c P5.
Proof.
  intros Hc. assert (H1 : Rpower c P3 <= Rpower c P5) by (apply Rpower_le_base; [exact Hc|unfold P3, P5; lra]).
  assert (H2 : Rpower c P5 <= Rpower c (/ 2)) by (apply Rpower_le_base; [exact Hc|unfold P5; lra]). rewrite Rpower_sqrt in H2 by lra.
  pose proof (Rpower_pos c P5) as H3. set (s := sqrt c) in *. assert (Hs : 0 < s) by (apply sqrt_lt_R0; lra). assert (Es : s * s = c) by (apply sqrt_sqrt; lra).
  assert (HA : (P2 + P4) * s <= P2 * Rpower c P3 + P4 * Rpower c P5) by (unfold P2, P4; lra).
  assert (HB : 0 < c * c + P1 * P1 + (P2 + P4) * s); [|lra]. rewrite <- Es. destruct (Rle_dec s 0.38) as [L|L].
  - assert (0 <= s * s * (s * s)) by nra. unfold P1, P2, P4. lra.
  - assert (0.38 * 0.38 <= s * s) by nra. assert (0.02 * s <= s * s * (s * s)) by nra. assert (0 < P1 * P1) by (unfold P1; lra). unfold P2, P4. nra.
Qed.
Lemma flux2015_pos e t : 0 < e -> 0 < t < PI / 2 -> exists x, flux2015 e t = Fin x /\ 0 < x.
Proof.
  intros He Ht. assert (Hc : 0 < cos t) by (apply cos_gt_0; lra). assert (Hc1 : cos t <= 1) by apply COS_bound. assert (Hs : 0 < sin t) by (apply sin_gt_0; lra).
  unfold flux2015. rewrite !xpow_pos by exact Hc. cbn [xmul xadd]. set (arg := cos t * cos t + P1 * P1 + P2 * Rpower (cos t) P3 + P4 * Rpower (cos t) P5).
  assert (Ha : 0 < arg) by (apply arg2015_pos; lra). set (D := 1 + P1 * P1 + P2 + P4). assert (HD : 0 < D) by (unfold D, P1, P2, P4; lra).
  rewrite xdiv_fin by lra. assert (Hq : 0 < arg / D) by now apply Rdiv_lt_0_compat. rewrite xsqrt_fin by lra. set (cosine := sqrt (arg / D)). assert (Hk : 0 < cosine) by now apply sqrt_lt_R0.
  rewrite (xpow_pos cosine) by exact Hk. cbn [xmul]. pose proof (Rpower_pos cosine 1.29) as Hp. set (p := Rpower cosine 1.29) in *. assert (Hep : 0 < e * p) by now apply Rmult_lt_0_compat.
  rewrite (xdiv_fin 3.64) by lra. cbn [xadd xmul]. assert (Hb : 0 < e * (1 + 3.64 / (e * p))). { apply Rmult_lt_0_compat; [exact He|]. assert (0 < 3.64 / (e * p)) by (apply Rdiv_lt_0_compat; lra). lra. }
  rewrite (xpow_pos _ (-2.7)) by exact Hb. assert (Hm : 0 < 1.1 * e * cosine) by (apply Rmult_lt_0_compat; lra).
  rewrite !(xdiv_fin (1.1 * e * cosine)) by lra. cbn [xadd].
  assert (H1 : 0 < 1 + 1.1 * e * cosine / 115) by (assert (0 < 1.1 * e * cosine / 115) by (apply Rdiv_lt_0_compat; lra); lra).
  assert (H2 : 0 < 1 + 1.1 * e * cosine / 850) by (assert (0 < 1.1 * e * cosine / 850) by (apply Rdiv_lt_0_compat; lra); lra).
  rewrite !xdiv_fin by lra. cbn [xadd xmul]. eexists. split; [reflexivity|]. pose proof (Rpower_pos (e * (1 + 3.64 / (e * p))) (-2.7)).
  repeat apply Rmult_lt_0_compat; try assumption; try lra; [cbn; lra|]. assert (0 < 1 / (1 + 1.1 * e * cosine / 115)) by (apply Rdiv_lt_0_compat; lra). assert (0 < 0.054 / (1 + 1.1 * e * cosine / 850)) by (apply Rdiv_lt_0_compat; lra). lra.
Qed.
Lemma flux2016_pos e t : 0 < e -> 0 < t < PI / 2 -> exists x, flux2016 e t = Fin x /\ 0 < x.
Proof.
  intros He Ht. assert (Hc : 0 < cos t) by (apply cos_gt_0; lra). assert (Hs : 0 < sin t) by (apply sin_gt_0; lra). unfold flux2016.
  assert (Hq : 0 <= Rod * Rod * (cos t * cos t) + 2 * Rod + 1) by (unfold Rod; nra). rewrite xsqrt_fin by exact Hq. unfold xsub. cbn [xopp xadd xmul].
  set (s := sqrt _ + - _). assert (Hss : 0 < s). { unfold s. assert (Rod * cos t < sqrt (Rod * Rod * (cos t * cos t) + 2 * Rod + 1)); [|lra]. rewrite <- (sqrt_square (Rod * cos t)) at 1 by (unfold Rod; nra). apply sqrt_lt_1; [unfold Rod; nra|exact Hq|]. unfold Rod. nra. }
  assert (0 < s * s) by nra. assert (Ha : 0 < E_0 + e) by (unfold E_0; lra). assert (0 < (E_0 + e) * (E_0 + e)) by nra. assert (0 < (E_0 + e) * (E_0 + e) * (E_0 + e)) by (apply Rmult_lt_0_compat; assumption). assert (0 < 1 + e * epinv) by (unfold epinv; lra).
  rewrite !xdiv_fin by lra. cbn [xmul]. eexists. split; [reflexivity|]. repeat apply Rmult_lt_0_compat; try assumption; try (apply Rinv_0_lt_compat; assumption); unfold I_0, N_2016, E_0, E_c; lra.
Qed.
Lemma total_pos f er tr N : (0 < N)%nat -> (forall k, (k < N)%nat -> 0 < cell_flux f er tr k) -> 0 < flux_before f er tr N.
Proof.
  intros HN H. unfold flux_before. apply Rsum_pos.
  - intros E. apply (f_equal (@length R)) in E. rewrite map_length, seq_length in E. cbn in E. lia.
  - intros x Hx. apply in_map_iff in Hx as (k & <- & Hk). apply in_seq in Hk. apply H. lia.
Qed.
(* the flux falls with the energy *)
Lemma flux2016_falls e e' t : 0 < e < e' -> 0 < t < PI / 2 -> exists x x', flux2016 e t = Fin x /\ flux2016 e' t = Fin x' /\ x' < x.
Proof.
  intros He Ht. assert (Hc : 0 < cos t) by (apply cos_gt_0; lra). assert (Hs : 0 < sin t) by (apply sin_gt_0; lra). unfold flux2016.
  assert (Hq : 0 <= Rod * Rod * (cos t * cos t) + 2 * Rod + 1) by (unfold Rod; nra). rewrite xsqrt_fin by exact Hq. unfold xsub. cbn [xopp xadd xmul].
  set (s := sqrt _ + - _). assert (Hss : 0 < s). { unfold s. assert (Rod * cos t < sqrt (Rod * Rod * (cos t * cos t) + 2 * Rod + 1)); [|lra]. rewrite <- (sqrt_square (Rod * cos t)) at 1 by (unfold Rod; nra). apply sqrt_lt_1; [unfold Rod; nra|exact Hq|]. unfold Rod. nra. }
  assert (Hss2 : 0 < s * s) by nra. set (a := E_0 + e). set (a' := E_0 + e'). assert (Ha : 0 < a < a') by (unfold a, a', E_0; lra).
  assert (H2 : 0 < a * a < a' * a') by nra. assert (H3 : 0 < a * a * a < a' * a' * a') by (split; [apply Rmult_lt_0_compat; lra|apply Rmult_le_0_lt_compat; lra]).
  set (b := 1 + e * epinv). set (b' := 1 + e' * epinv). assert (Hb : 0 < b < b') by (unfold b, b', epinv; lra).
  rewrite !xdiv_fin by lra. cbn [xmul]. eexists _, _. split; [reflexivity|]. split; [reflexivity|].
  apply Rmult_lt_compat_r; [exact Hs|]. apply Rmult_lt_compat_r; [exact Hc|]. apply Rmult_lt_compat_r; [apply Rdiv_lt_0_compat; lra|].
  assert (K : 0 < I_0 * N_2016) by (unfold I_0, N_2016, E_0, E_c; lra).
  assert (V1 : 0 < / (a' * a' * a') < / (a * a * a)) by (split; [apply Rinv_0_lt_compat; lra|apply Rinv_lt_contravar; [apply Rmult_lt_0_compat; lra|lra]]).
  assert (V2 : 0 < / b' < / b) by (split; [apply Rinv_0_lt_compat; lra|apply Rinv_lt_contravar; [apply Rmult_lt_0_compat; lra|lra]]).
  unfold Rdiv. rewrite !Rmult_1_l. revert V1 V2. generalize (/ (a * a * a)) (/ (a' * a' * a')) (/ b) (/ b'). intros u u' v v' V1 V2.
  rewrite !(Rmult_assoc (I_0 * N_2016)). apply Rmult_lt_compat_l; [exact K|]. apply Rmult_le_0_lt_compat; lra.
Qed.
Lemma Rpower_neg_lt x y a : 0 < x < y -> a < 0 -> Rpower y a < Rpower x a.
Proof. intros H Ha. unfold Rpower. apply exp_increasing. assert (ln x < ln y) by (apply ln_increasing; lra). nra. Qed.
Lemma flux2015_falls e e' t : 0 < e < e' -> 0 < t < PI / 2 -> exists x x', flux2015 e t = Fin x /\ flux2015 e' t = Fin x' /\ x' < x.
Proof.
  intros He Ht. assert (Hc : 0 < cos t) by (apply cos_gt_0; lra). assert (Hc1 : cos t <= 1) by apply COS_bound. assert (Hs : 0 < sin t) by (apply sin_gt_0; lra).
  unfold flux2015. rewrite !xpow_pos by exact Hc. cbn [xmul xadd]. set (arg := cos t * cos t + P1 * P1 + P2 * Rpower (cos t) P3 + P4 * Rpower (cos t) P5).
  assert (Ha : 0 < arg) by (apply arg2015_pos; lra). set (D := 1 + P1 * P1 + P2 + P4). assert (HD : 0 < D) by (unfold D, P1, P2, P4; lra).
  rewrite xdiv_fin by lra. assert (Hq : 0 < arg / D) by now apply Rdiv_lt_0_compat. rewrite xsqrt_fin by lra. set (cosine := sqrt (arg / D)). assert (Hk : 0 < cosine) by now apply sqrt_lt_R0.
  rewrite (xpow_pos cosine) by exact Hk. cbn [xmul]. pose proof (Rpower_pos cosine 1.29) as Hp. set (p := Rpower cosine 1.29) in *.
  assert (Hep : 0 < e * p) by (apply Rmult_lt_0_compat; lra). assert (Hep' : 0 < e' * p) by (apply Rmult_lt_0_compat; lra).
  rewrite (xdiv_fin 3.64 (e * p)), (xdiv_fin 3.64 (e' * p)) by lra. cbn [xadd xmul].
  assert (Q : forall z, 0 < z -> z * (1 + 3.64 / (z * p)) = z + 3.64 / p) by (intros; field; lra). rewrite !Q by lra.
  assert (H4 : 0 < 3.64 / p) by (apply Rdiv_lt_0_compat; lra). rewrite !(xpow_pos _ (-2.7)) by lra.
  assert (Hm : 0 < 1.1 * e * cosine < 1.1 * e' * cosine) by (split; [apply Rmult_lt_0_compat; lra|apply Rmult_lt_compat_r; lra]).
  rewrite !(xdiv_fin (1.1 * e * cosine)), !(xdiv_fin (1.1 * e' * cosine)) by lra. cbn [xadd].
  rewrite !xdiv_fin by lra. cbn [xadd xmul]. eexists _, _. split; [reflexivity|]. split; [reflexivity|].
  apply Rmult_lt_compat_r; [exact Hs|]. apply Rmult_lt_compat_r; [exact Hc|].
  pose proof (Rpower_neg_lt (e + 3.64 / p) (e' + 3.64 / p) (-2.7) ltac:(lra) ltac:(lra)) as V. pose proof (Rpower_pos (e' + 3.64 / p) (-2.7)) as V0.
  assert (W1 : 0 < / (1 + 1.1 * e' * cosine / 115) < / (1 + 1.1 * e * cosine / 115)) by (split; [apply Rinv_0_lt_compat; lra|apply Rinv_lt_contravar; [apply Rmult_lt_0_compat; lra|lra]]).
  assert (W2 : 0 < / (1 + 1.1 * e' * cosine / 850) < / (1 + 1.1 * e * cosine / 850)) by (split; [apply Rinv_0_lt_compat; lra|apply Rinv_lt_contravar; [apply Rmult_lt_0_compat; lra|lra]]).
  apply Rmult_le_0_lt_compat; unfold Rdiv in *; lra.
Qed.
