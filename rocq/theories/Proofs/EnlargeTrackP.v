(* C114: the fit and the scatterings with all lengths multiplied by k. *)
From Coq Require Import Lia Lra.
From Verif Require Import Base.RUtil Spec.LayerSpec Spec.SymmetrySpec Spec.EnlargeTrackSpec Proofs.TrackFit Proofs.ScatterGeo Proofs.ScatterKeep Proofs.SymmetryP.
From Verif Require Import Base.XR.
Open Scope R_scope.
Open Scope list_scope.

Section S.
Variables (k : R) (K : 0 < k).

(* the fit *)
Notation farm := (fun m : R3 => let '(x, z, s) := m in (k * x, k * z, s)).
Lemma chi2_far a b ms : chi2 (k * a) b (map farm ms) = k * k * chi2 a b ms.
Proof.
  unfold chi2, Rsum. induction ms as [|[[x z] s] ms IH]; cbn [map fold_right] in *; [ring|]. rewrite IH. unfold sq, Rdiv. ring.
Qed.
Lemma best_far a b ms : best_line a b ms -> best_line (k * a) b (map farm ms).
Proof.
  intros [M U]. assert (Q : 0 < k * k) by nra. split.
  - intros a' b'. replace a' with (k * (a' / k)) by (field; lra). rewrite !chi2_far. apply Rmult_le_compat_l; [lra|apply M].
  - intros a' b' E. replace a' with (k * (a' / k)) in E |- * by (field; lra). rewrite !chi2_far in E. apply Rmult_eq_reg_l in E; [|lra]. apply U in E as [-> ->]. split; reflexivity.
Qed.
Lemma used_far x z u : used1 (xtimes k x) (k * z) u = map farm (used1 x z u).
Proof. destruct x, u; try reflexivity. cbn. destruct (Rlt_dec _ _); reflexivity. Qed.
Lemma used_x_far hs : used_x (map (far_hit k) hs) = map farm (used_x hs).
Proof. unfold used_x. induction hs as [|h hs IH]; [reflexivity|]. cbn [map flat_map]. rewrite IH, map_app. f_equal. apply used_far. Qed.
Lemma used_y_far hs : used_y (map (far_hit k) hs) = map farm (used_y hs).
Proof. unfold used_y. induction hs as [|h hs IH]; [reflexivity|]. cbn [map flat_map]. rewrite IH, map_app. f_equal. apply used_far. Qed.
Lemma two_far ms : two_heights ms -> two_heights (map farm ms).
Proof.
  intros (((x & z) & s) & ((x' & z') & s') & P & Q & N). exists (k * x, k * z, s), (k * x', k * z', s'). split; [exact (in_map _ _ _ P)|]. split; [exact (in_map _ _ _ Q)|]. cbn in *. nra.
Qed.
Lemma ok_far x u : fit_ok x u -> fit_ok (xtimes k x) u.
Proof.
  intros [N H]. split; [destruct x; cbn; congruence|]. destruct H as [H|(s & E & P & H)]; [left; exact H|]. right. exists s. split; [exact E|]. split; [exact P|].
  destruct H as [H|(a & ->)]; [left; exact H|right; cbn; eauto].
Qed.
Lemma fit_far lw lw' h0 h1 rest : let hs := h0 :: h1 :: rest in
  (forall h, In h hs -> fit_ok (h_x h) (u_x h) /\ fit_ok (h_y h) (u_y h)) -> two_heights (used_x hs) -> two_heights (used_y hs) ->
  exists t, trajectory lw (map hit_xyz hs) (map hit_unc hs) = Ok t /\
    trajectory lw' (map hit_xyz (map (far_hit k) hs)) (map hit_unc (map (far_hit k) hs)) = Ok (big_track k t).
Proof.
  intros hs H Tx Ty. destruct (fit_minimal lw h0 h1 rest H Tx Ty) as (ax & bx & ay & by' & E & Bx & By).
  destruct (fit_minimal lw' (far_hit k h0) (far_hit k h1) (map (far_hit k) rest)) as (ax' & bx' & ay' & by'' & E' & Bx' & By').
  - intros h Hh. change (In h (map (far_hit k) hs)) in Hh. apply in_map_iff in Hh as (g & <- & Hg). destruct (H g Hg). split; apply ok_far; assumption.
  - change (two_heights (used_x (map (far_hit k) hs))). rewrite used_x_far. apply two_far, Tx.
  - change (two_heights (used_y (map (far_hit k) hs))). rewrite used_y_far. apply two_far, Ty.
  - eexists. split; [exact E|]. cbn [hs map] in E' |- *. rewrite E'. f_equal.
    change (best_line ax' bx' (used_x (map (far_hit k) hs))) in Bx'. rewrite used_x_far in Bx'. change (best_line ay' by'' (used_y (map (far_hit k) hs))) in By'. rewrite used_y_far in By'.
    destruct (best_unique _ _ _ _ _ (best_far _ _ _ Bx) Bx') as [-> ->]. destruct (best_unique _ _ _ _ _ (best_far _ _ _ By) By') as [-> ->].
    unfold track_on, big_track, big_v. cbn [t_vec t_start fv vx vy vz far_hit h_z xtimes]. f_equal; f_equal; f_equal; ring.
Qed.
Lemma big_far hs : map (big_hit k) hs = map (coarser k) (map (far_hit k) hs).
Proof. rewrite map_map. reflexivity. Qed.
Lemma fit_big lw lw' hs : (2 <= length hs)%nat -> (forall h, In h hs -> same_use k (u_x h) /\ same_use k (u_y h)) ->
  (forall h, In h hs -> fit_ok (h_x h) (u_x h) /\ fit_ok (h_y h) (u_y h)) -> two_heights (used_x hs) -> two_heights (used_y hs) ->
  exists t, trajectory lw (map hit_xyz hs) (map hit_unc hs) = Ok t /\
    trajectory lw' (map hit_xyz (map (big_hit k) hs)) (map hit_unc (map (big_hit k) hs)) = Ok (big_track k t).
Proof.
  intros L S H Tx Ty. destruct hs as [|h0 [|h1 rest]]; cbn in L; try lia. destruct (fit_far lw lw' h0 h1 rest H Tx Ty) as (t & E & E').
  exists t. split; [exact E|]. rewrite big_far. set (hs := h0 :: h1 :: rest) in *.
  destruct (fit_units lw' lw' k (map (far_hit k) hs) K) as (t' & F & F').
  - cbn. lia.
  - intros h Hh. apply in_map_iff in Hh as (g & <- & Hg). exact (S g Hg).
  - intros h Hh. apply in_map_iff in Hh as (g & <- & Hg). destruct (H g Hg). split; apply ok_far; assumption.
  - rewrite used_x_far. apply two_far, Tx.
  - rewrite used_y_far. apply two_far, Ty.
  - rewrite F', <- E', F. reflexivity.
Qed.

(* scatterings *)
Lemma big_fv p : big_v k (fv p) = fv (scale3 k p). Proof. destruct p as [[? ?] ?]. reflexivity. Qed.
Lemma big_ftrack v p : big_track k (ftrack v p) = ftrack (scale3 k v) (scale3 k p).
Proof. unfold big_track, ftrack. cbn [t_vec t_start]. rewrite !big_fv. reflexivity. Qed.
Lemma z_scale p : z3 (scale3 k p) = k * z3 p. Proof. destruct p as [[? ?] ?]. reflexivity. Qed.
Lemma down_scale p : z3 p < 0 -> z3 (scale3 k p) < 0. Proof. rewrite z_scale. nra. Qed.
Lemma line_scale p v t : on_line (scale3 k p) (scale3 k v) t = scale3 k (on_line p v t).
Proof. unfold on_line. destruct p as [[? ?] ?], v as [[? ?] ?]. cbn. f_equal; [f_equal|]; ring. Qed.
Lemma cross_scale a b : cross3 (scale3 k a) (scale3 k b) = scale3 (k * k) (cross3 a b).
Proof. destruct a as [[? ?] ?], b as [[? ?] ?]. cbn. f_equal; [f_equal|]; ring. Qed.
Lemma scale_inv p q : scale3 k p = scale3 k q -> p = q.
Proof. destruct p as [[? ?] ?], q as [[? ?] ?]. cbn. intro E. injection E as A B C. f_equal; [f_equal|]; (eapply Rmult_eq_reg_l; [eassumption|lra]). Qed.
Lemma parallel_scale a b : not_parallel a b <-> not_parallel (scale3 k a) (scale3 k b).
Proof.
  split; intros N s t E.
  - apply N, scale_inv. destruct a as [[? ?] ?], b as [[? ?] ?]. cbn in *. injection E as A B C. f_equal; [f_equal|]; lra.
  - apply N. destruct a as [[? ?] ?], b as [[? ?] ?]. cbn in *. injection E as A B C. f_equal; [f_equal|]; nra.
Qed.
Lemma theta_scale v : z3 v < 0 -> theta1 (fv (scale3 k v)) = theta1 (fv v).
Proof.
  intro Z. destruct (theta_spec v Z) as (a & -> & A & C & _). destruct (theta_spec _ (down_scale _ Z)) as (b & -> & B & D & _). f_equal. pose proof PI_RGT_0.
  apply angle_unique; try lra. rewrite norm3_scale, z_scale in D by lra.
  assert (0 < norm3 v) by (apply norm3_pos; intros ->; unfold z3 in Z; cbn in Z; lra).
  apply Rmult_eq_reg_l with (k * norm3 v); [|nra]. nra.
Qed.
Lemma phi_scale x y : phi1 (Fin (k * x)) (Fin (k * y)) = phi1 (Fin x) (Fin y).
Proof.
  assert (P : forall r, Rltb 0 (k * r) = Rltb 0 r) by (intro r; destruct (Rltb_spec 0 (k * r)), (Rltb_spec 0 r); try reflexivity; exfalso; nra).
  assert (N : forall r, Rltb (k * r) 0 = Rltb r 0) by (intro r; destruct (Rltb_spec (k * r) 0), (Rltb_spec r 0); try reflexivity; exfalso; nra).
  assert (Z : xeq (Fin (k * x)) (Fin 0) = xeq (Fin x) (Fin 0)).
  { unfold xeq. destruct (Reqb_spec (k * x) 0) as [A|A], (Reqb_spec x 0) as [B|B]; try reflexivity; exfalso; [apply Rmult_integral in A as [A|A]; [lra|contradiction]|apply A; rewrite B; ring]. }
  unfold phi1. rewrite Z. cbn [xlt]. rewrite !P, !N. destruct (xeq (Fin x) (Fin 0)) eqn:E; [reflexivity|]. cbn [negb].
  assert (X : x <> 0) by (apply Reqb_false, E).
  rewrite (xdiv_fin y x X), (xdiv_fin (k * y) (k * x)) by (apply Rmult_integral_contrapositive; split; [lra|exact X]). replace (k * y / (k * x)) with (y / x) by (field; lra). reflexivity.
Qed.
Lemma th_in_big v1 p1 t2 : z3 v1 < 0 -> th_in (big_tracks k (ftrack v1 p1, t2)) = th_in (ftrack v1 p1, t2).
Proof. intro Z. unfold th_in, big_tracks. cbn [fst]. rewrite big_ftrack. apply theta_scale, Z. Qed.
Lemma th_out_big t1 v2 p2 : z3 v2 < 0 -> th_out (big_tracks k (t1, ftrack v2 p2)) = th_out (t1, ftrack v2 p2).
Proof. intro Z. unfold th_out, big_tracks. cbn [snd]. rewrite big_ftrack. apply theta_scale, Z. Qed.
Lemma ph_in_big v1 p1 t2 : ph_in (big_tracks k (ftrack v1 p1, t2)) = ph_in (ftrack v1 p1, t2).
Proof. unfold ph_in, big_tracks. cbn [fst]. rewrite big_ftrack. destruct v1 as [[? ?] ?]. apply phi_scale. Qed.
Lemma ph_out_big t1 v2 p2 : ph_out (big_tracks k (t1, ftrack v2 p2)) = ph_out (t1, ftrack v2 p2).
Proof. unfold ph_out, big_tracks. cbn [snd]. rewrite big_ftrack. destruct v2 as [[? ?] ?]. apply phi_scale. Qed.
Lemma down_nz v : z3 v < 0 -> v <> (0, 0, 0). Proof. intros Z ->. unfold z3 in Z. cbn in Z. lra. Qed.
Lemma total_big v1 p1 v2 p2 : z3 v1 < 0 -> z3 v2 < 0 -> let ts := (ftrack v1 p1, ftrack v2 p2) in
  theta_msc1 (t_vec (fst (big_tracks k ts))) (t_vec (snd (big_tracks k ts))) = theta_msc1 (fv v1) (fv v2).
Proof. intros Z W ts. unfold ts, big_tracks. cbn [fst snd]. rewrite !big_ftrack. cbn [ftrack t_vec]. apply total_scale; auto using down_nz. Qed.
Lemma in_big zr v p : z3 v < 0 -> xyz_in1 (big_pair k zr) (ftrack (scale3 k v) (scale3 k p)) = fv (scale3 k (on_line p v ((snd zr - z3 p) / z3 v))).
Proof. intro Z. rewrite xyz_in_fin by (rewrite z_scale; nra). rewrite line_scale. do 3 f_equal. rewrite !z_scale. cbn [big_pair snd]. field. lra. Qed.
Lemma out_big zr v p : z3 v < 0 -> xyz_out1 (big_pair k zr) (ftrack (scale3 k v) (scale3 k p)) = fv (scale3 k (on_line p v (- ((z3 p - fst zr) / z3 v)))).
Proof. intro Z. rewrite xyz_out_fin by (rewrite z_scale; nra). rewrite line_scale. do 3 f_equal. rewrite !z_scale. cbn [big_pair fst]. field. lra. Qed.
Lemma l3_big p : l3 (fv (scale3 k p)) = map (xtimes k) (l3 (fv p)). Proof. destruct p as [[? ?] ?]. reflexivity. Qed.
Definition coef_big (c : v3) : v3 := V3 (vx c) (vy c) (xtimes (/ k) (vz c)).
Lemma coefs_big v1 p1 v2 p2 c : not_parallel v1 v2 -> coefs1 (ftrack (scale3 k v1) (scale3 k p1), ftrack (scale3 k v2) (scale3 k p2)) = Ok c ->
  exists c0 c1 c2, c = fv (c0, c1, / k * c2) /\ coefs1 (ftrack v1 p1, ftrack v2 p2) = Ok (fv (c0, c1, c2)).
Proof.
  intros N E. destruct (coefs_fin v1 p1 v2 p2 (cross_nonzero _ _ N)) as (c0 & c1 & c2 & E0 & H0). exists c0, c1, c2. split; [|exact E0].
  pose proof (proj1 (parallel_scale _ _) N) as N'. destruct (sound_coefs _ _ _ _ _ N' E) as (d0 & d1 & d2 & -> & H). f_equal.
  apply (coefs_unique _ _ _ _ _ _ _ _ _ _ N' H). rewrite !line_scale, <- H0, cross_scale. clear - K.
  destruct (on_line p1 v1 c0) as [[? ?] ?], (cross3 v1 v2) as [[? ?] ?]. cbn. f_equal; [f_equal|]; field; lra.
Qed.
Lemma big_coefs l l' l'' : Forall2 (fun ts c => exists v1 p1 v2 p2, ts = (ftrack v1 p1, ftrack v2 p2) /\ z3 v1 < 0 /\ z3 v2 < 0 /\ not_parallel v1 v2 /\ coefs1 ts = Ok c) l l' ->
  Forall2 (fun ts c => exists v1 p1 v2 p2, ts = (ftrack v1 p1, ftrack v2 p2) /\ z3 v1 < 0 /\ z3 v2 < 0 /\ not_parallel v1 v2 /\ coefs1 ts = Ok c) (map (big_tracks k) l) l'' -> l'' = map coef_big l'.
Proof.
  intro F. revert l''. induction F as [|ts c l l' (v1 & p1 & v2 & p2 & -> & _ & _ & N & E) F IH]; intros l'' F'; cbn [map] in F'; inversion F' as [|? c' ? r (w1 & q1 & w2 & q2 & E1 & _ & _ & _ & E2) F'']; subst; [reflexivity|].
  cbn [map]. rewrite (IH _ F''). f_equal. clear E1. unfold big_tracks in E2. cbn [fst snd] in E2. rewrite !big_ftrack in E2. destruct (coefs_big _ _ _ _ _ N E2) as (c0 & c1 & c2 & -> & E3).
  rewrite E in E3. injection E3 as ->. reflexivity.
Qed.
Lemma value_big zr sb sb' v : sound_scatters sb -> sound_scatters sb' -> sb_tracks sb' = map (big_tracks k) (sb_tracks sb) ->
  value (big_pair k zr) sb' v = (if is_length v then map (map (xtimes k)) (value zr sb v) else value zr sb v).
Proof.
  intros S S' T. pose proof (down_tracks _ S) as SF. assert (C : sb_coefs sb' = map coef_big (sb_coefs sb)). { unfold sound_scatters in S'. rewrite T in S'. exact (big_coefs _ _ _ S S'). }
  unfold value. destruct v; cbn [is_length]; rewrite ?T, ?C, ?map2_map_lr, ?map_map2, ?map_map.
  1: { apply (map2_F2 _ _ _ _ _ S). intros ts c (v1 & p1 & v2 & p2 & -> & _ & _ & N & E). destruct (sound_coefs _ _ _ _ _ N E) as (c0 & c1 & c2 & -> & _).
    unfold big_tracks. cbn [fst snd]. rewrite !big_ftrack. change (coef_big (fv (c0, c1, c2))) with (fv (c0, c1, / k * c2)). rewrite !poca_fin, <- l3_big. f_equal. f_equal.
    rewrite line_scale, cross_scale. destruct (on_line p1 v1 c0) as [[? ?] ?], (cross3 v1 v2) as [[? ?] ?]. cbn. f_equal; [f_equal|]; field; lra. }
  1: { apply (map2_F2 _ _ _ _ _ S). intros ts c (v1 & p1 & v2 & p2 & -> & _ & _ & N & E). destruct (sound_coefs _ _ _ _ _ N E) as (c0 & c1 & c2 & -> & _).
    unfold big_tracks. cbn [fst snd]. rewrite !big_ftrack. cbn [ftrack t_vec coef_big vz fv xtimes]. rewrite !vcross_fv, cross_scale, !vscale_fv.
    destruct (cross3 v1 v2) as [[a b] d]. cbn. f_equal; [|f_equal]; apply (f_equal Fin); field; lra. }
  all: apply (map_F _ _ _ _ SF); intros ts (v1 & p1 & v2 & p2 & -> & H1 & H2); rewrite ?th_in_big, ?th_out_big, ?ph_in_big, ?ph_out_big by assumption; try reflexivity.
  - now rewrite (total_big _ _ _ _ H1 H2).
  - unfold big_tracks. cbn [fst snd]. rewrite big_ftrack, in_big, xyz_in_fin, l3_big by lra. reflexivity.
  - unfold big_tracks. cbn [fst snd]. rewrite big_ftrack, out_big, xyz_out_fin, l3_big by lra. reflexivity.
Qed.

(* which muons are kept *)
Lemma steep_scale v : steep v -> steep (scale3 k v).
Proof. unfold steep. rewrite norm3_scale, z_scale by lra. nra. Qed.
Lemma near_scale lw p : near lw p -> near (big_pair k lw) (scale3 k p).
Proof. unfold near, big_pair. destruct p as [[x y] z]. cbn. nra. Qed.
Lemma usable_big lw zr uncs uncs' ts : (forall u', In u' uncs' -> xlt (vx u') (Fin 10000000000) = true /\ xlt (vy u') (Fin 10000000000) = true) ->
  usable lw zr uncs ts -> usable (big_pair k lw) (big_pair k zr) uncs' (big_tracks k ts).
Proof.
  intros U (v1 & p1 & v2 & p2 & -> & S1 & S2 & N & (s & A & B) & (t & C & D) & _). unfold big_tracks. cbn [fst snd]. rewrite !big_ftrack.
  exists (scale3 k v1), (scale3 k p1), (scale3 k v2), (scale3 k p2). split; [reflexivity|]. split; [apply steep_scale, S1|]. split; [apply steep_scale, S2|]. split; [apply (parallel_scale v1 v2), N|].
  split; [exists s; rewrite line_scale, z_scale, A; split; [reflexivity|apply near_scale, B]|]. split; [exists t; rewrite line_scale, z_scale, C; split; [reflexivity|apply near_scale, D]|]. exact U.
Qed.
End S.
