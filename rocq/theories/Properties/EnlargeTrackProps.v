(* Property C114, continued: only ratios of lengths matter for tracks, scatterings and X0, but for two lengths written into the code. *)
From Coq Require Import Reals List String Lra Lia ZArith.
From Verif Require Import Model.Volume Model.X0Infer Spec.VolumeSpec Spec.LayerSpec Spec.EnlargeSpec Spec.EnlargeTrackSpec Spec.EnlargeVoxelSpec Proofs.VolumeP Proofs.ScatterGeo Proofs.ScatterKeep Proofs.LiftInferP Proofs.EnlargeP Proofs.EnlargeTrackP Properties.ScatterProps Properties.SymmetryProps.
From Verif Require Import Base.XR.
Open Scope R_scope.
Open Scope list_scope.

(* C114. The track through hits whose places and uncertainties are multiplied by k is the track multiplied by k. *)
Theorem C114_track :
  forall k lw lw' hs, 0 < k -> (2 <= List.length hs)%nat -> (forall h, In h hs -> same_use k (u_x h) /\ same_use k (u_y h)) ->
  (forall h, In h hs -> fit_ok (h_x h) (u_x h) /\ fit_ok (h_y h) (u_y h)) -> two_heights (used_x hs) -> two_heights (used_y hs) ->
  exists t, trajectory lw (map hit_xyz hs) (map hit_unc hs) = Ok t
    /\ trajectory lw' (map hit_xyz (map (big_hit k) hs)) (map hit_unc (map (big_hit k) hs)) = Ok (big_track k t).
Proof. intros. now apply fit_big. Qed.
Print Assumptions C114_track.

(* C114. From tracks multiplied by k come scatterings at places multiplied by k with displacements multiplied by k; all angles stay. *)
Theorem C114_scatters :
  forall k zr sb sb' v, 0 < k -> sound_scatters sb -> sound_scatters sb' -> sb_tracks sb' = map (big_tracks k) (sb_tracks sb) ->
  value (big_pair k zr) sb' v = (if is_length v then map (map (xtimes k)) (value zr sb v) else value zr sb v).
Proof. intros. now apply value_big. Qed.
Print Assumptions C114_scatters.

(* C114. The same muons are kept, if the uncertainties of their hits are on the same side of the limit of 1e10 as before.  No condition on the tracks. *)
Lemma undo k x : 0 < k -> xtimes (/ k) (xtimes k x) = x.
Proof. intro K. destruct x; try reflexivity. cbn. f_equal. field. lra. Qed.
Lemma undo_tracks k ts : 0 < k -> big_tracks (/ k) (big_tracks k ts) = ts.
Proof. intro K. destruct ts as [[[] []] [[] []]]. unfold big_tracks, big_track, big_v. cbn. now rewrite !undo. Qed.
Lemma undo_pair k p : 0 < k -> big_pair (/ k) (big_pair k p) = p.
Proof. intro K. destruct p. unfold big_pair. cbn. f_equal; field; lra. Qed.
Theorem C114_kept :
  forall k gen lw zr m m' ts, 0 < k -> (small_unc (used_uncs gen m) <-> small_unc (used_uncs gen m')) ->
  keep1 gen (big_pair k lw) (big_pair k zr) m' (big_tracks k ts) = keep1 gen lw zr m ts.
Proof.
  intros k gen lw zr m m' ts K U.
  destruct (keep1 gen lw zr m ts) eqn:E.
  - apply keep_usable in E. apply keep_usable. apply (usable_big k K lw zr (used_uncs gen m)); [|exact E]. apply U. destruct E as (? & ? & ? & ? & _ & _ & _ & _ & _ & _ & E). exact E.
  - destruct (keep1 gen (big_pair k lw) _ _ _) eqn:E'; [|reflexivity]. rewrite <- E. symmetry. apply keep_usable in E'. apply keep_usable.
    rewrite <- (undo_pair k lw K), <- (undo_pair k zr K), <- (undo_tracks k ts K). apply (usable_big (/ k) (Rinv_0_lt_compat _ K) _ _ (used_uncs gen m')); [|exact E'].
    apply U. destruct E' as (? & ? & ? & ? & _ & _ & _ & _ & _ & _ & E'). exact E'.
Qed.
Print Assumptions C114_kept.

(* C114. The limit is a length written into the code: a muon is kept with hits known to 6e9 metres, and is dropped in units of half a metre. *)
Theorem C114_kept_refuted :
  exists lw zr ts u, keep1 false lw zr (MH [] [] [u] []) ts = true
    /\ keep1 false (big_pair 2 lw) (big_pair 2 zr) (MH [] [] [big_v 2 u] []) (big_tracks 2 ts) = false.
Proof.
  exists (1, 1), (1, 4), (ftrack (0, 0, -1) (0, 0, 5), ftrack (1, 0, -1) (1, 0, 1)), (V3 (Fin 6000000000) (Fin 6000000000) (Fin 0)). split.
  - apply keep_usable. destruct C28_case as (_ & _ & U & _).
    destruct U as (v1 & p1 & v2 & p2 & E & A & B & C & D & F & _). exists v1, p1, v2, p2. split; [exact E|]. split; [exact A|]. split; [exact B|]. split; [exact C|]. split; [exact D|]. split; [exact F|].
    intros u [<-|[]]. cbn. destruct (Rltb_spec 6000000000 10000000000); [auto|lra].
  - destruct (keep1 _ _ _ _ _) eqn:E; [|reflexivity]. apply keep_usable in E as (? & ? & ? & ? & _ & _ & _ & _ & _ & _ & E). destruct (E _ (or_introl eq_refl)) as [E' _]. cbn in E'.
    destruct (Rltb_spec (2 * 6000000000) 10000000000); [lra|discriminate].
Qed.
Print Assumptions C114_kept_refuted.

(* C114. The voxels of a volume are multiplied by k.  No condition on the layers. *)
Theorem C114_voxels : forall k ls, 0 < k -> grid_of (map (big_layer k) ls) = rmap (big_grid k) (grid_of ls).
Proof.
  intros k ls K.
  assert (P : passives (map (big_layer k) ls) = map (big_passive k) (passives ls)) by (unfold passives; induction ls as [|[L|D] ls IH]; cbn; [reflexivity|now rewrite IH|exact IH]).
  assert (Q : forall a s, k * a / (k * s) = a / s) by (intros a s; unfold Rdiv; rewrite Rinv_mult; replace (k * a * (/ k * / s)) with (k * / k * (a * / s)) by ring; rewrite Rinv_r by lra; ring).
  unfold grid_of, build_xyz_edges, passive_z_range, last_passive. rewrite P, <- map_rev. destruct (rev (passives ls)) as [|L r]; [reflexivity|]. cbn [map bind rmap].
  destruct (passives ls) as [|L0 r0]; [reflexivity|]. cbn [map bind rmap big_passive pl_lx pl_ly pl_size pl_z fst snd]. rewrite <- Rmult_minus_distr_l, !Q. unfold big_grid. cbn [g_nx g_ny g_nz g_size g_edges List.length]. rewrite map_length. do 2 f_equal.
  rewrite map_flat. apply flat_ext. intro i. rewrite map_flat. apply flat_ext. intro j. rewrite map_map. apply map_ext. intro n. cbn. f_equal; [f_equal|]; ring.
Qed.
Print Assumptions C114_voxels.

(* C114. From the same probabilities, variables with places multiplied by k and voxels multiplied by k, X0 predictions are multiplied by k. *)
Theorem C114_prediction :
  forall k g vars uncs eff probs, 0 < k ->
  voxel_preds (big_grid k g) (map (big_vars k) vars) (map (big_vars k) uncs) eff probs = rmap (map (big k)) (voxel_preds g vars uncs eff probs).
Proof.
  intros k g vars uncs eff probs K. unfold voxel_preds. cbn [big_grid g_nx g_ny g_nz g_size].
  assert (C : forall i t, (3 <= i)%nat -> X0Infer.col i (map (big_vars k) t) = X0Infer.col i t).
  { intros i t I. unfold X0Infer.col. rewrite map_map. apply map_ext. intros [|x [|y [|z r]]]; try reflexivity. destruct i as [|[|[|i]]]; [lia|lia|lia|reflexivity]. }
  assert (X : forall dz s a b p, x0_from_scatters (k * dz) s a b p = big k (x0_from_scatters dz s a b p)).
  { intros. unfold x0_from_scatters. change (Fin (k * dz)) with (big k (Fin dz)). rewrite B_mul_r by assumption. rewrite B_div by assumption. reflexivity. }
  match goal with |- (if existsb xisnan (map ?f ?l) then _ else _) = rmap _ (if existsb xisnan (map ?f' _) then _ else _) => assert (F : map f l = map (big k) (map f' l)) end.
  { rewrite map_map. apply map_ext. intro j. unfold voxel_x0. now rewrite !C, X by lia. }
  rewrite F. assert (N : forall l, existsb xisnan (map (big k) l) = existsb xisnan l).
  { induction l as [|x l IH]; [reflexivity|]. cbn [map existsb]. rewrite IH. f_equal. rewrite B_grow by assumption. destruct x; reflexivity. }
  rewrite N. destruct (existsb _ _); reflexivity.
Qed.
Print Assumptions C114_prediction.

(* C114. Probabilities of a muon to have scattered in a voxel stay, if the widths of the Normals, uncertainties plus 1e-7, are multiplied by k. *)
Theorem C114_probability :
  forall k cdf g p u u' r r', 0 < k -> in_widths cdf -> widths_big k u u' ->
  let row (q : R * R * R) r := let '(x, y, z) := q in Fin x :: Fin y :: Fin z :: r in
  muon_probs cdf (big_grid k g) (row (big3 k p) r) (row u' r') = muon_probs cdf g (row p r) (row u r').
Proof.
  intros k cdf g [[px py] pz] [[ux uy] uz] [[vx' vy'] vz'] r r' K W (Hx & Hy & Hz) row. unfold row. cbn [big3]. unfold muon_probs. cbn [three big_grid g_nx g_ny g_nz g_size g_edges].
  assert (P : forall t, Rltb 0 (k * t) = Rltb 0 t) by (intro t; destruct (Rltb_spec 0 (k * t)), (Rltb_spec 0 t); try reflexivity; exfalso; nra).
  unfold scales_ok. rewrite Hx, Hy, Hz, !P. destruct (Rltb 0 _ && Rltb 0 _ && Rltb 0 _)%bool; [|reflexivity]. do 3 f_equal. rewrite map_map. apply map_ext. intros [[x y] z]. unfold voxel_prob. cbn [big3].
  rewrite Hx, Hy, Hz. rewrite <- !Rmult_plus_distr_l, !W by assumption. reflexivity.
Qed.
Print Assumptions C114_probability.

(* C114. The 1e-7 is a length written into the code: a place with uncertainty 0 and a voxel of 5e-8 in its corner, twice as large. *)
Definition flat_cdf (l s x : R) : R := Rmax 0 (Rmin 1 (((x - l) / s + 1) / 2)).
Lemma flat_widths : in_widths flat_cdf.
Proof.
  intros k l s x K. unfold flat_cdf. replace ((k * x - k * l) / (k * s)) with ((x - l) / s); [reflexivity|]. unfold Rdiv. rewrite Rinv_mult, <- Rmult_minus_distr_l. replace (k * (x - l) * (/ k * / s)) with (k * / k * ((x - l) * / s)) by ring. rewrite Rinv_r by lra. ring.
Qed.
Theorem C114_probability_refuted :
  exists cdf g p u w w', in_widths cdf /\ muon_probs cdf g p u = Ok [Fin w] /\ muon_probs cdf (big_grid 2 g) (big_vars 2 p) (big_vars 2 u) = Ok [Fin w'] /\ w < w'.
Proof.
  assert (V : forall x, 0 <= x <= 1 / 10000000 -> flat_cdf 0 (0 + 1 / 10000000) x = (x * 10000000 + 1) / 2).
  { intros x H. unfold flat_cdf. replace ((x - 0) / (0 + 1 / 10000000)) with (x * 10000000) by field. rewrite Rmin_right by lra. apply Rmax_right. lra. }
  exists flat_cdf, (Grid 1 1 1 (1 / 20000000) [(0, 0, 0)]), [Fin 0; Fin 0; Fin 0], [Fin 0; Fin 0; Fin 0], (1 / 64 + 1 / 1000000000000000), (1 / 8 + 1 / 1000000000000000). repeat split.
  - exact flat_widths.
  - unfold muon_probs. cbn [three scales_ok]. destruct (Rltb_spec 0 (0 + 1 / 10000000)); [|lra]. cbn. unfold voxel_prob. rewrite !V by lra. do 3 f_equal. lra.
  - unfold muon_probs. cbn [big_vars big xmul three scales_ok]. replace (2 * 0) with 0 by ring. destruct (Rltb_spec 0 (0 + 1 / 10000000)); [|lra]. cbn. replace (2 * 0) with 0 by ring. rewrite !V by lra. do 3 f_equal. lra.
  - lra.
Qed.
Print Assumptions C114_probability_refuted.

(* hits and voxels that these theorems speak about; every batch of scatterings has one multiplied by k *)
Example C114_track_case :
  (2 <= List.length sample_hits)%nat /\ (forall h, In h sample_hits -> same_use 2 (u_x h) /\ same_use 2 (u_y h))
  /\ (forall h, In h sample_hits -> fit_ok (h_x h) (u_x h) /\ fit_ok (h_y h) (u_y h)) /\ two_heights (used_x sample_hits) /\ two_heights (used_y sample_hits)
  /\ widths_big 3 (1, 1, 1) (3 + 2 / 10000000, 3 + 2 / 10000000, 3 + 2 / 10000000) /\ in_widths flat_cdf
  /\ (forall k sb, 0 < k -> sound_scatters sb -> exists sb', sound_scatters sb' /\ sb_tracks sb' = map (big_tracks k) (sb_tracks sb)).
Proof.
  destruct C110_case as (F & Tx & Ty & S). split; [cbn; lia|]. split; [exact S|]. split; [exact F|]. split; [exact Tx|]. split; [exact Ty|]. split; [repeat split; lra|]. split; [exact flat_widths|].
  intros k sb K Sb. destruct sb as [hits n l l']. unfold sound_scatters in *. cbn [sb_tracks sb_coefs] in *.
  assert (E : exists l'', Forall2 (fun ts c => exists v1 p1 v2 p2, ts = (ftrack v1 p1, ftrack v2 p2) /\ z3 v1 < 0 /\ z3 v2 < 0 /\ not_parallel v1 v2 /\ coefs1 ts = Ok c) (map (big_tracks k) l) l'').
  { induction Sb as [|ts c l l' (v1 & p1 & v2 & p2 & -> & Z & W & N & _) Sb (l'' & IH)]; [exists []; constructor|].
    pose proof (proj1 (parallel_scale k K v1 v2) N) as N'. destruct (coefs_fin (scale3 k v1) (scale3 k p1) (scale3 k v2) (scale3 k p2) (cross_nonzero _ _ N')) as (c0 & c1 & c2 & E & _).
    exists (fv (c0, c1, c2) :: l''). cbn [map]. constructor; [|exact IH]. unfold big_tracks. cbn [fst snd]. rewrite !big_ftrack. exists (scale3 k v1), (scale3 k p1), (scale3 k v2), (scale3 k p2).
    split; [reflexivity|]. split; [now apply down_scale|]. split; [now apply down_scale|]. split; [exact N'|exact E]. }
  destruct E as (l'' & E). exists (SB [] 0%nat (map (big_tracks k) l) l''). split; [exact E|reflexivity].
Qed.
