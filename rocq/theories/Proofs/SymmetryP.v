(* C110: the fit and the scatterings when the origin moves, x and y are exchanged, hits come in another order. *)
From Coq Require Import Permutation Lia Lra.
From Verif Require Import Base.RUtil Spec.LayerSpec Spec.SymmetrySpec Proofs.TrackFit Proofs.ScatterGeo Proofs.ScatterKeep.
From Verif Require Import Base.XR.
Open Scope R_scope.
Open Scope list_scope.

(* the best line *)
Lemma best_unique a b a' b' ms : best_line a b ms -> best_line a' b' ms -> a' = a /\ b' = b.
Proof. intros [M U] [M' _]. apply U. apply Rle_antisym; [apply M'|apply M]. Qed.
Lemma chi2_moved a b d c ms : chi2 a b (map (fun m : R3 => let '(x, z, s) := m in (x + d, z + c, s)) ms) = chi2 (a - d + b * c) b ms.
Proof.
  unfold chi2. induction ms as [|[[x z] s] ms IH]; [reflexivity|]. cbn [map Rsum fold_right] in *. unfold Rsum in *. cbn [map fold_right]. rewrite IH. f_equal. f_equal. unfold Rdiv. f_equal. ring.
Qed.
Lemma best_moved a b d c ms : best_line a b ms -> best_line (a + d - b * c) b (map (fun m : R3 => let '(x, z, s) := m in (x + d, z + c, s)) ms).
Proof.
  intros [M U]. split.
  - intros a' b'. rewrite !chi2_moved. replace (a + d - b * c - d + b * c) with a by ring. apply M.
  - intros a' b' E. rewrite !chi2_moved in E. replace (a + d - b * c - d + b * c) with a in E by ring. apply U in E as [E1 E2]. subst b'. split; [lra|reflexivity].
Qed.
Lemma used_moved d c x z u : used1 (xmove d x) (z + c) u = map (fun m : R3 => let '(x, z, s) := m in (x + d, z + c, s)) (used1 x z u).
Proof. destruct x, u; try reflexivity. cbn. destruct (Rlt_dec _ _); reflexivity. Qed.
Lemma used_x_moved a b c hs : used_x (map (moved_hit a b c) hs) = map (fun m : R3 => let '(x, z, s) := m in (x + a, z + c, s)) (used_x hs).
Proof. unfold used_x. induction hs as [|h hs IH]; [reflexivity|]. cbn [map flat_map]. rewrite IH, map_app. f_equal. apply used_moved. Qed.
Lemma used_y_moved a b c hs : used_y (map (moved_hit a b c) hs) = map (fun m : R3 => let '(x, z, s) := m in (x + b, z + c, s)) (used_y hs).
Proof. unfold used_y. induction hs as [|h hs IH]; [reflexivity|]. cbn [map flat_map]. rewrite IH, map_app. f_equal. apply used_moved. Qed.
Lemma two_moved d c ms : two_heights ms -> two_heights (map (fun m : R3 => let '(x, z, s) := m in (x + d, z + c, s)) ms).
Proof.
  intros (((x & z) & s) & ((x' & z') & s') & P & Q & N). exists (x + d, z + c, s), (x' + d, z' + c, s'). split; [exact (in_map _ _ _ P)|]. split; [exact (in_map _ _ _ Q)|]. cbn in *. lra.
Qed.
Lemma ok_moved d x u : fit_ok x u -> fit_ok (xmove d x) u.
Proof.
  intros [N H]. split; [destruct x; cbn; congruence|]. destruct H as [H|(s & E & P & H)]; [left; exact H|]. right. exists s. split; [exact E|]. split; [exact P|].
  destruct H as [H|(a & ->)]; [left; exact H|right; cbn; eauto].
Qed.
Lemma fit_moved lw lw' a b c h0 h1 rest : let hs := h0 :: h1 :: rest in
  (forall h, In h hs -> fit_ok (h_x h) (u_x h) /\ fit_ok (h_y h) (u_y h)) -> two_heights (used_x hs) -> two_heights (used_y hs) ->
  exists t, trajectory lw (map hit_xyz hs) (map hit_unc hs) = Ok t /\
    trajectory lw' (map hit_xyz (map (moved_hit a b c) hs)) (map hit_unc (map (moved_hit a b c) hs)) = Ok (moved_track a b c t).
Proof.
  intros hs H Tx Ty. destruct (fit_minimal lw h0 h1 rest H Tx Ty) as (ax & bx & ay & by' & E & Bx & By).
  destruct (fit_minimal lw' (moved_hit a b c h0) (moved_hit a b c h1) (map (moved_hit a b c) rest)) as (ax' & bx' & ay' & by'' & E' & Bx' & By').
  - intros h Hh. change (In h (map (moved_hit a b c) hs)) in Hh. apply in_map_iff in Hh as (k & <- & Hk). destruct (H k Hk). split; apply ok_moved; assumption.
  - change (two_heights (used_x (map (moved_hit a b c) hs))). rewrite used_x_moved. apply two_moved, Tx.
  - change (two_heights (used_y (map (moved_hit a b c) hs))). rewrite used_y_moved. apply two_moved, Ty.
  - eexists. split; [exact E|]. cbn [hs map] in E' |- *. rewrite E'. f_equal.
    change (best_line ax' bx' (used_x (map (moved_hit a b c) hs))) in Bx'. rewrite used_x_moved in Bx'. change (best_line ay' by'' (used_y (map (moved_hit a b c) hs))) in By'. rewrite used_y_moved in By'.
    destruct (best_unique _ _ _ _ _ (best_moved _ _ a c _ Bx) Bx') as [-> ->]. destruct (best_unique _ _ _ _ _ (best_moved _ _ b c _ By) By') as [-> ->].
    unfold track_on, moved_track, moved_v. cbn [t_vec t_start fv vx vy vz moved_hit h_z xmove]. f_equal; f_equal; f_equal; ring.
Qed.

(* scatterings when the origin moves *)
Lemma moved_ftrack a b c v p : moved_track a b c (ftrack v p) = ftrack v (add3 p (a, b, c)).
Proof. destruct p as [[x y] z]. reflexivity. Qed.
Lemma moved_fv a b c p : moved_v a b c (fv p) = fv (add3 p (a, b, c)).
Proof. destruct p as [[x y] z]. reflexivity. Qed.
Lemma coefs_moved a b c v1 p1 v2 p2 : coefs1 (ftrack v1 (add3 p1 (a, b, c)), ftrack v2 (add3 p2 (a, b, c))) = coefs1 (ftrack v1 p1, ftrack v2 p2).
Proof.
  unfold coefs1, ftrack. cbn [fst snd t_vec t_start]. rewrite !vsub_fv. do 2 f_equal. destruct p1 as [[x y] z], p2 as [[x' y'] z']. cbn. f_equal; [f_equal|]; ring.
Qed.
Lemma l3_fv a b c p : l3 (fv (add3 p (a, b, c))) = moved_row a b c (l3 (fv p)).
Proof. destruct p as [[x y] z]. reflexivity. Qed.
Lemma sound_coefs v1 p1 v2 p2 c : not_parallel v1 v2 -> coefs1 (ftrack v1 p1, ftrack v2 p2) = Ok c -> exists c0 c1 c2, c = fv (c0, c1, c2) /\
  add3 (on_line p1 v1 c0) (scale3 c2 (cross3 v1 v2)) = on_line p2 v2 c1.
Proof. intros N E. destruct (coefs_fin v1 p1 v2 p2 (cross_nonzero _ _ N)) as (c0 & c1 & c2 & E' & H). rewrite E in E'. injection E' as ->. exists c0, c1, c2. auto. Qed.
Lemma xyz_in_fin zr v p : z3 v <> 0 -> xyz_in1 zr (ftrack v p) = fv (on_line p v ((snd zr - z3 p) / z3 v)).
Proof.
  intro N. unfold xyz_in1, ftrack. cbn [t_vec t_start]. destruct v as [[a b] c], p as [[x y] z]. unfold z3 in *. cbn [snd fv vz xsub xadd xopp] in *. rewrite xdiv_fin by exact N.
  unfold vadd, vscale, on_line. cbn. f_equal.
Qed.
Lemma xyz_out_fin zr v p : z3 v <> 0 -> xyz_out1 zr (ftrack v p) = fv (on_line p v (- ((z3 p - fst zr) / z3 v))).
Proof.
  intro N. unfold xyz_out1, ftrack. cbn [t_vec t_start]. destruct v as [[a b] c], p as [[x y] z]. unfold z3 in *. cbn [snd fv vz xsub xadd xopp] in *. rewrite xdiv_fin by exact N.
  unfold vsub, vscale, on_line. cbn. f_equal; f_equal; field; exact N.
Qed.
Lemma map2_F2 {A B C} (f g : A -> B -> C) l l' (P : A -> B -> Prop) : Forall2 P l l' -> (forall a b, P a b -> f a b = g a b) -> map2 f l l' = map2 g l l'.
Proof. intros F H. induction F as [|a b l l' p _ IH]; [reflexivity|]. cbn. rewrite (H a b p), IH. reflexivity. Qed.
Lemma map2_map_l {A A' B C} (f : A' -> B -> C) (g : A -> A') l l' : map2 f (map g l) l' = map2 (fun a b => f (g a) b) l l'.
Proof. revert l'. induction l as [|a l IH]; intros [|b l']; try reflexivity. cbn. rewrite IH. reflexivity. Qed.
Lemma map_map2 {A B C D} (f : C -> D) (g : A -> B -> C) l l' : map f (map2 g l l') = map2 (fun a b => f (g a b)) l l'.
Proof. revert l'. induction l as [|a l IH]; intros [|b l']; try reflexivity. cbn. rewrite IH. reflexivity. Qed.
Lemma F2_l {A B} (P : A -> B -> Prop) (Q : A -> Prop) l l' : Forall2 P l l' -> (forall a b, P a b -> Q a) -> Forall Q l.
Proof. intros F H. induction F; constructor; eauto. Qed.
Lemma map_F {A B} (f g : A -> B) l (P : A -> Prop) : Forall P l -> (forall a, P a -> f a = g a) -> map f l = map g l.
Proof. intros F H. induction F as [|a l p _ IH]; [reflexivity|]. cbn. rewrite (H a p), IH. reflexivity. Qed.
Lemma value_moved a b c zr sb v : sound_scatters sb ->
  value (fst zr + c, snd zr + c) (moved_scatters a b c sb) v = (if is_place v then map (moved_row a b c) (value zr sb v) else value zr sb v).
Proof.
  intro S. pose proof (F2_l _ (fun ts => exists v1 p1 v2 p2, ts = (ftrack v1 p1, ftrack v2 p2) /\ z3 v1 < 0 /\ z3 v2 < 0) _ _ S) as SF.
  assert (SF' : Forall (fun ts => exists v1 p1 v2 p2, ts = (ftrack v1 p1, ftrack v2 p2) /\ z3 v1 < 0 /\ z3 v2 < 0) (sb_tracks sb)).
  { apply SF. intros ts c0 (v1 & p1 & v2 & p2 & E & H1 & H2 & _). exists v1, p1, v2, p2. auto. }
  clear SF. unfold value, moved_scatters. destruct v; cbn [is_place sb_tracks sb_coefs]; try (rewrite map_map; apply (map_ext_in); reflexivity).
  - rewrite map2_map_l, map_map2. apply (map2_F2 _ _ _ _ _ S). intros ts k (v1 & p1 & v2 & p2 & -> & _ & _ & N & E).
    destruct (sound_coefs _ _ _ _ _ N E) as (c0 & c1 & c2 & -> & _). cbn [fst snd]. rewrite !moved_ftrack, !poca_fin, <- l3_fv. f_equal. f_equal.
    unfold on_line. destruct p1 as [[? ?] ?], v1 as [[? ?] ?], v2 as [[? ?] ?]. cbn. f_equal; [f_equal|]; ring.
  - rewrite map2_map_l. reflexivity.
  - rewrite !map_map. apply (map_F _ _ _ _ SF'). intros ts (v1 & p1 & v2 & p2 & -> & H1 & H2). cbn [fst snd]. rewrite moved_ftrack, !xyz_in_fin by lra. rewrite <- l3_fv. f_equal. f_equal.
    unfold on_line. destruct p1 as [[x y] z], v1 as [[e f] g]. unfold z3 in *. cbn in *. f_equal; [f_equal|]; field; lra.
  - rewrite !map_map. apply (map_F _ _ _ _ SF'). intros ts (v1 & p1 & v2 & p2 & -> & H1 & H2). cbn [fst snd]. rewrite moved_ftrack, !xyz_out_fin by lra. rewrite <- l3_fv. f_equal. f_equal.
    unfold on_line. destruct p2 as [[x y] z], v2 as [[e f] g]. unfold z3 in *. cbn in *. f_equal; [f_equal|]; field; lra.
Qed.

(* x and y exchanged: the fit, for all inputs *)
Lemma map2_map_lr {A A' B B' C} (f : A' -> B' -> C) (g : A -> A') (h : B -> B') l l' : map2 f (map g l) (map h l') = map2 (fun a b => f (g a) (h b)) l l'.
Proof. revert l'. induction l as [|a l IH]; intros [|b l']; try reflexivity. cbn. rewrite IH. reflexivity. Qed.
Lemma flip_vmap f l : map (vmap f) (map flip_v l) = map flip_v (map (vmap f) l).
Proof. rewrite !map_map. reflexivity. Qed.
Lemma fit_flip lw hits uncs : trajectory (flip2 lw) (map flip_v hits) (map flip_v uncs) = rmap flip_track (trajectory lw hits uncs).
Proof.
  unfold trajectory. rewrite !map_length. destruct (negb _); [reflexivity|]. cbv zeta. rewrite !flip_vmap.
  replace (fst (flip2 lw) + snd (flip2 lw)) with (fst lw + snd lw) by (cbn; ring).
  set (hs := map (vmap (fun a => if xisinf a then Fin ((fst lw + snd lw) / 2 / 2) else a)) hits). set (us := map (vmap nan_to_num) uncs).
  rewrite !map2_map_lr. cbn [flip_v vx vy vz].
  destruct (fit_axis (map2 (fun h u => (vx h, vz h, vx u)) hs us)) as [sx ax]. destruct (fit_axis (map2 (fun h u => (vy h, vz h, vy u)) hs us)) as [sy ay].
  destruct hs as [|h0 [|h1 hs]]; reflexivity.
Qed.
Lemma tracks_flip gen lw n m : tracks1 gen (flip2 lw) n (flip_hits m) = rmap flip_tracks (tracks1 gen lw n m).
Proof.
  unfold tracks1.
  set (hs := if gen then mh_gen m else mh_reco m). set (us := if gen then used_uncs gen m else map2 (fun u e => vmap (fun a => xdiv a e) u) (mh_unc m) (mh_eff m)).
  assert ((if gen then mh_gen (flip_hits m) else mh_reco (flip_hits m)) = map flip_v hs) as -> by (unfold hs; destruct gen; reflexivity).
  assert ((if gen then used_uncs gen (flip_hits m) else map2 (fun u e => vmap (fun a => xdiv a e) u) (mh_unc (flip_hits m)) (mh_eff (flip_hits m))) = map flip_v us) as ->.
  { unfold us. destruct gen; cbn [flip_hits mh_unc mh_eff mh_gen used_uncs]; [rewrite !map_map; reflexivity|rewrite map2_map_l, map_map2; reflexivity]. }
  rewrite !firstn_map, !skipn_map, !fit_flip.
  destruct (trajectory lw (firstn n hs) (firstn n us)); cbn; [|reflexivity]. destruct (trajectory lw (skipn n hs) (skipn n us)); reflexivity.
Qed.

(* flipped vectors of numbers *)
Definition flip3 (p : R3) : R3 := let '(x, y, z) := p in (y, x, z).
Lemma flip_fv p : flip_v (fv p) = fv (flip3 p). Proof. destruct p as [[x y] z]. reflexivity. Qed.
Lemma flip3_flip3 p : flip3 (flip3 p) = p. Proof. destruct p as [[x y] z]. reflexivity. Qed.
Lemma flip_ftrack v p : flip_track (ftrack v p) = ftrack (flip3 v) (flip3 p).
Proof. unfold flip_track, ftrack. cbn [t_vec t_start]. rewrite !flip_fv. reflexivity. Qed.
Lemma dot_flip p q : dot3 (flip3 p) (flip3 q) = dot3 p q. Proof. destruct p as [[? ?] ?], q as [[? ?] ?]. cbn. ring. Qed.
Lemma norm_flip p : norm3 (flip3 p) = norm3 p. Proof. unfold norm3. rewrite dot_flip. reflexivity. Qed.
Lemma z_flip p : z3 (flip3 p) = z3 p. Proof. destruct p as [[? ?] ?]. reflexivity. Qed.
Lemma scale_flip k p : scale3 k (flip3 p) = flip3 (scale3 k p). Proof. destruct p as [[? ?] ?]. reflexivity. Qed.
Lemma add_flip p q : add3 (flip3 p) (flip3 q) = flip3 (add3 p q). Proof. destruct p as [[? ?] ?], q as [[? ?] ?]. reflexivity. Qed.
Lemma line_flip p v t : on_line (flip3 p) (flip3 v) t = flip3 (on_line p v t). Proof. unfold on_line. rewrite scale_flip, add_flip. reflexivity. Qed.
Lemma parallel_flip a b : not_parallel a b -> not_parallel (flip3 a) (flip3 b).
Proof. intros N s t E. apply N. rewrite !scale_flip in E. apply (f_equal flip3) in E. rewrite !flip3_flip3 in E. exact E. Qed.
Lemma near_flip lw p : near lw p -> near (flip2 lw) (flip3 p).
Proof. destruct p as [[x y] z], lw as [l w]. unfold near. cbn. tauto. Qed.
Lemma cross_flip a b : cross3 (flip3 a) (flip3 b) = scale3 (-1) (flip3 (cross3 a b)).
Proof. destruct a as [[? ?] ?], b as [[? ?] ?]. cbn. f_equal; [f_equal|]; ring. Qed.
Lemma usable_flip lw zr uncs ts : usable lw zr uncs ts -> usable (flip2 lw) zr (map flip_v uncs) (flip_tracks ts).
Proof.
  intros (v1 & p1 & v2 & p2 & -> & S1 & S2 & N & (s & Z & Nr) & (s' & Z' & Nr') & U). exists (flip3 v1), (flip3 p1), (flip3 v2), (flip3 p2).
  split; [unfold flip_tracks; cbn [fst snd]; rewrite !flip_ftrack; reflexivity|]. unfold steep in *. rewrite !norm_flip, !z_flip. split; [exact S1|]. split; [exact S2|].
  split; [apply parallel_flip, N|]. split; [exists s; rewrite line_flip, z_flip; split; [exact Z|apply near_flip, Nr]|]. split; [exists s'; rewrite line_flip, z_flip; split; [exact Z'|apply near_flip, Nr']|].
  intros u Hu. apply in_map_iff in Hu as (u0 & <- & H0). destruct (U u0 H0). split; assumption.
Qed.
Lemma flip_v2 l : map flip_v (map flip_v l) = l.
Proof. rewrite map_map. rewrite <- (map_id l) at 2. apply map_ext. intros []. reflexivity. Qed.
Lemma keep_flip gen lw zr m ts : keep1 gen (flip2 lw) zr (flip_hits m) (flip_tracks ts) = keep1 gen lw zr m ts.
Proof.
  assert (U : used_uncs gen (flip_hits m) = map flip_v (used_uncs gen m)) by (destruct gen; cbn; [rewrite !map_map; reflexivity|reflexivity]).
  apply Bool.eq_iff_eq_true. rewrite !keep_usable, U. split; [|apply usable_flip]. intro H. apply usable_flip in H. rewrite flip_v2 in H. destruct lw as [l w], ts as [[[? ? ?] [? ? ?]] [[? ? ?] [? ? ?]]]. exact H.
Qed.

(* scatterings of flipped tracks *)
Lemma coefs_unique v1 p1 v2 p2 c0 c1 c2 d0 d1 d2 : not_parallel v1 v2 ->
  add3 (on_line p1 v1 c0) (scale3 c2 (cross3 v1 v2)) = on_line p2 v2 c1 -> add3 (on_line p1 v1 d0) (scale3 d2 (cross3 v1 v2)) = on_line p2 v2 d1 -> (c0, c1, c2) = (d0, d1, d2).
Proof.
  intros N E E'. pose proof (cross_nonzero _ _ N) as Q. destruct (ortho v1 v2) as [O1 O2]. set (n := cross3 v1 v2) in *.
  assert (D : add3 (scale3 (c0 - d0) v1) (scale3 (c2 - d2) n) = scale3 (c1 - d1) v2).
  { clear - E E'. clearbody n. unfold on_line in *. destruct v1 as [[? ?] ?], v2 as [[? ?] ?], p1 as [[? ?] ?], p2 as [[? ?] ?], n as [[? ?] ?]. cbn [add3 scale3] in *.
    injection E as ? ? ?. injection E' as ? ? ?. f_equal; [f_equal|]; lra. }
  assert (K : c2 - d2 = 0).
  { assert (H : (c2 - d2) * dot3 n n = 0); [|apply Rmult_integral in H as [H|H]; [exact H|contradiction]].
    apply (f_equal (dot3 n)) in D. clear - D O1 O2. clearbody n. destruct v1 as [[a1 a2] a3], v2 as [[b1 b2] b3], n as [[n1 n2] n3]. cbn [dot3 add3 scale3] in *.
    transitivity ((c1 - d1) * (n1 * b1 + n2 * b2 + n3 * b3) - (c0 - d0) * (n1 * a1 + n2 * a2 + n3 * a3)); [|rewrite O1, O2; ring]. lra. }
  rewrite K in D. assert (P : scale3 (c0 - d0) v1 = scale3 (c1 - d1) v2).
  { rewrite <- D. clearbody n. destruct v1 as [[? ?] ?], n as [[? ?] ?]. cbn. f_equal; [f_equal|]; ring. }
  apply N in P as [? ?]. f_equal; [f_equal|]; lra.
Qed.
Lemma coefs_flip v1 p1 v2 p2 c : not_parallel v1 v2 -> coefs1 (ftrack (flip3 v1) (flip3 p1), ftrack (flip3 v2) (flip3 p2)) = Ok c ->
  exists c0 c1 c2, c = fv (c0, c1, - c2) /\ coefs1 (ftrack v1 p1, ftrack v2 p2) = Ok (fv (c0, c1, c2)).
Proof.
  intros N E. destruct (coefs_fin v1 p1 v2 p2 (cross_nonzero _ _ N)) as (c0 & c1 & c2 & E0 & H0). exists c0, c1, c2. split; [|exact E0].
  destruct (sound_coefs _ _ _ _ _ (parallel_flip _ _ N) E) as (d0 & d1 & d2 & -> & H). f_equal.
  apply (coefs_unique _ _ _ _ _ _ _ _ _ _ (parallel_flip _ _ N) H). rewrite !line_flip, <- H0, cross_flip. clear.
  destruct (on_line p1 v1 c0) as [[? ?] ?], (cross3 v1 v2) as [[? ?] ?]. cbn. f_equal; [f_equal|]; ring.
Qed.
Lemma theta_flip v : theta1 (fv (flip3 v)) = theta1 (fv v).
Proof. unfold theta1. rewrite !vnorm_fv, norm_flip. destruct v as [[? ?] ?]. reflexivity. Qed.
Lemma total_flip p q : theta_msc1 (fv (flip3 p)) (fv (flip3 q)) = theta_msc1 (fv p) (fv q).
Proof. unfold theta_msc1. rewrite !vdot_fv, !vnorm_fv, !norm_flip, dot_flip. reflexivity. Qed.

(* azimuths *)
Lemma phi_flip x y : x <> 0 \/ y <> 0 -> mirrored [phi1 (Fin x) (Fin y)] [phi1 (Fin y) (Fin x)].
Proof.
  intro N. destruct (phi_spec x y) as (a & E & Ba & Ca & Sa). destruct (phi_spec y x) as (b & E' & Bb & Cb & Sb). exists a, b. rewrite E, E'. split; [reflexivity|]. split; [reflexivity|].
  split; [exact Ba|]. split; [exact Bb|]. assert (Hr : sqrt (y * y + x * x) = sqrt (x * x + y * y)) by (f_equal; ring). rewrite Hr in Cb, Sb.
  assert (P : 0 < sqrt (x * x + y * y)) by (apply sqrt_lt_R0; destruct N; nra). set (r := sqrt (x * x + y * y)) in *. clearbody r.
  assert (C : cos b = sin a) by (apply Rmult_eq_reg_l with r; lra). assert (S : sin b = cos a) by (apply Rmult_eq_reg_l with r; lra).
  assert (K : cos (a + b - PI / 2) = 1 /\ sin (a + b - PI / 2) = 0).
  { replace (a + b - PI / 2) with (- (PI / 2 - (a + b))) by ring. rewrite cos_neg, sin_neg, cos_shift, sin_shift, sin_plus, cos_plus, C, S. pose proof (sin2_cos2 a) as Q. unfold Rsqr in Q. split; lra. }
  destruct K as [K1 K2]. pose proof PI_RGT_0. set (d := a + b - PI / 2) in *.
  assert (D : d = 0 \/ d = 2 * PI); [|unfold d in D; destruct D; [left|right]; lra].
  destruct (Rlt_dec d 0) as [L|L].
  - exfalso. assert (cos d < 1); [|lra]. destruct (Rlt_dec d (- (PI / 2))); [unfold d in *; lra|]. replace d with (- (- d)) by ring. rewrite cos_neg, <- cos_0. apply cos_decreasing_1; lra.
  - destruct (Req_dec d 0) as [E0|E0]; [left; exact E0|]. right. destruct (Rlt_dec d PI) as [L1|L1]; [exfalso; pose proof (sin_gt_0 d); lra|].
    destruct (Req_dec d PI) as [E1|E1]; [exfalso; rewrite E1, cos_PI in K1; lra|]. destruct (Rlt_dec d (2 * PI)) as [L2|L2]; [exfalso; pose proof (sin_lt_0 d); lra|].
    destruct (Req_dec d (2 * PI)) as [E2|E2]; [exact E2|]. exfalso. assert (Z : sin (d - 2 * PI) = 0). { rewrite <- (sin_period (d - 2 * PI) 1). replace (d - 2 * PI + 2 * INR 1 * PI) with d by (cbn; ring). exact K2. }
    assert (d - 2 * PI < 3 * PI / 2) by (unfold d; lra). destruct (Rlt_dec (d - 2 * PI) PI) as [L3|L3]; [pose proof (sin_gt_0 (d - 2 * PI)); lra|].
    destruct (Req_dec (d - 2 * PI) PI) as [E3|E3]; [|pose proof (sin_lt_0 (d - 2 * PI)); lra].
    assert (cos d = -1); [|lra]. replace d with (PI + 2 * INR 1 * PI) by (cbn; lra). rewrite cos_period. apply cos_PI.
Qed.
Definition rmin (a b : R) : R := if Rleb a b then a else b.
Definition circ (a b : R) : R := rmin (rmin (2 * PI - a + b) (2 * PI - b + a)) (Rabs (a - b)).
Lemma xmin_fin a b : xmin (Fin a) (Fin b) = Fin (rmin a b).
Proof. unfold xmin, rmin. cbn. destruct (Rleb a b); reflexivity. Qed.
Lemma rmin_cases a b : (a <= b /\ rmin a b = a) \/ (b < a /\ rmin a b = b).
Proof. unfold rmin. destruct (Rleb_spec a b); [left|right]; split; auto; lra. Qed.
Lemma circ_mirror a b a' b' : 0 <= a < 2 * PI -> 0 <= b < 2 * PI -> 0 <= a' < 2 * PI -> 0 <= b' < 2 * PI ->
  a + a' = PI / 2 \/ a + a' = 5 * PI / 2 -> b + b' = PI / 2 \/ b + b' = 5 * PI / 2 -> circ a b = circ a' b'.
Proof.
  intros Ba Bb Ba' Bb' H H'. unfold circ.
  destruct (rmin_cases (rmin (2 * PI - a + b) (2 * PI - b + a)) (Rabs (a - b))) as [[L ->]|[L ->]]; destruct (rmin_cases (2 * PI - a + b) (2 * PI - b + a)) as [[L1 E1]|[L1 E1]]; rewrite E1 in *;
  destruct (rmin_cases (rmin (2 * PI - a' + b') (2 * PI - b' + a')) (Rabs (a' - b'))) as [[K ->]|[K ->]]; destruct (rmin_cases (2 * PI - a' + b') (2 * PI - b' + a')) as [[K1 E2]|[K1 E2]]; rewrite E2 in *;
  unfold Rabs in *; destruct (Rcase_abs (a - b)), (Rcase_abs (a' - b')), H, H'; lra.
Qed.
Lemma dtheta_fin ti pi to po : dtheta_dphi1 (Fin ti) (Fin pi) (Fin to) (Fin po) =
  (let dphi := circ pi po in if argmin_is_first (xsqrt (xadd (xsquare (Fin (Rabs (ti - to)))) (xsquare (Fin dphi)))) (xsqrt (xadd (xsquare (Fin (ti + to))) (xsquare (Fin (PI - dphi)))))
   then (Fin (Rabs (ti - to)), Fin dphi) else (Fin (ti + to), Fin (PI - dphi))).
Proof. unfold dtheta_dphi1, circ. cbv zeta. cbn [xsub xadd xabs xopp]. rewrite !xmin_fin. cbn [xsub xadd xabs xopp]. reflexivity. Qed.

(* scatterings when x and y are exchanged *)
Lemma proj_flip v : z3 v < 0 ->
  xproj_x (theta1 (fv (flip3 v))) (phi1 (vx (fv (flip3 v))) (vy (fv (flip3 v)))) = xproj_y (theta1 (fv v)) (phi1 (vx (fv v)) (vy (fv v))) /\
  xproj_y (theta1 (fv (flip3 v))) (phi1 (vx (fv (flip3 v))) (vy (fv (flip3 v)))) = xproj_x (theta1 (fv v)) (phi1 (vx (fv v)) (vy (fv v))).
Proof. intro H. destruct (projected v H) as [-> ->]. destruct (projected (flip3 v)) as [-> ->]; [rewrite z_flip; exact H|]. rewrite z_flip. destruct v as [[? ?] ?]. split; reflexivity. Qed.
Lemma l3_flip p : l3 (fv (flip3 p)) = flip_row (l3 (fv p)). Proof. destruct p as [[? ?] ?]. reflexivity. Qed.
Lemma down_tracks sb : sound_scatters sb -> Forall (fun ts => exists v1 p1 v2 p2, ts = (ftrack v1 p1, ftrack v2 p2) /\ z3 v1 < 0 /\ z3 v2 < 0) (sb_tracks sb).
Proof. intro S. apply (F2_l _ (fun ts => exists v1 p1 v2 p2, ts = (ftrack v1 p1, ftrack v2 p2) /\ z3 v1 < 0 /\ z3 v2 < 0) _ _ S). intros ts c0 (v1 & p1 & v2 & p2 & E & H1 & H2 & _). exists v1, p1, v2, p2. auto. Qed.
Definition coef_neg (c : v3) : v3 := V3 (vx c) (vy c) (xopp (vz c)).
Lemma flip_coefs l l' l'' : Forall2 (fun ts c => exists v1 p1 v2 p2, ts = (ftrack v1 p1, ftrack v2 p2) /\ z3 v1 < 0 /\ z3 v2 < 0 /\ not_parallel v1 v2 /\ coefs1 ts = Ok c) l l' ->
  Forall2 (fun ts c => exists v1 p1 v2 p2, ts = (ftrack v1 p1, ftrack v2 p2) /\ z3 v1 < 0 /\ z3 v2 < 0 /\ not_parallel v1 v2 /\ coefs1 ts = Ok c) (map flip_tracks l) l'' -> l'' = map coef_neg l'.
Proof.
  intro F. revert l''. induction F as [|ts c l l' (v1 & p1 & v2 & p2 & -> & _ & _ & N & E) F IH]; intros l'' F'; cbn [map] in F'; inversion F' as [|? c' ? r (w1 & q1 & w2 & q2 & E1 & _ & _ & _ & E2) F'']; subst; [reflexivity|].
  cbn [map]. rewrite (IH _ F''). f_equal. clear E1. unfold flip_tracks in E2. cbn [fst snd] in E2. rewrite !flip_ftrack in E2. destruct (coefs_flip _ _ _ _ _ N E2) as (c0 & c1 & c2 & -> & E3).
  rewrite E in E3. injection E3 as ->. reflexivity.
Qed.
Lemma value_flip zr sb sb' v : sound_scatters sb -> sound_scatters sb' -> sb_tracks sb' = map flip_tracks (sb_tracks sb) -> is_azimuth v = false ->
  value zr sb' v = map flip_row (value zr sb v).
Proof.
  intros S S' T A. pose proof (down_tracks _ S) as SF. assert (C : sb_coefs sb' = map coef_neg (sb_coefs sb)). { unfold sound_scatters in S'. rewrite T in S'. exact (flip_coefs _ _ _ S S'). }
  unfold value. destruct v; try discriminate A; rewrite ?T, ?C, ?map2_map_lr, ?map_map2, ?map_map.
  - apply (map2_F2 _ _ _ _ _ S). intros ts k (v1 & p1 & v2 & p2 & -> & _ & _ & N & E). destruct (sound_coefs _ _ _ _ _ N E) as (c0 & c1 & c2 & -> & _).
    unfold flip_tracks. cbn [fst snd]. rewrite !flip_ftrack. change (coef_neg (fv (c0, c1, c2))) with (fv (c0, c1, - c2)). rewrite !poca_fin, <- l3_flip. f_equal. f_equal.
    rewrite line_flip, cross_flip. destruct (on_line p1 v1 c0) as [[? ?] ?], (cross3 v1 v2) as [[? ?] ?]. cbn. f_equal; [f_equal|]; lra.
  - apply (map2_F2 _ _ _ _ _ S). intros ts k (v1 & p1 & v2 & p2 & -> & _ & _ & N & E). destruct (sound_coefs _ _ _ _ _ N E) as (c0 & c1 & c2 & -> & _).
    unfold flip_tracks. cbn [fst snd]. rewrite !flip_ftrack. cbn [ftrack t_vec coef_neg vz fv xopp]. rewrite !vcross_fv, cross_flip, !vscale_fv.
    destruct (cross3 v1 v2) as [[a b] d]. cbn. f_equal; [|f_equal]; apply (f_equal Fin); ring.
  - apply (map_F _ _ _ _ SF). intros ts (v1 & p1 & v2 & p2 & -> & H1 & H2). unfold th_in, flip_tracks. cbn [fst snd]. rewrite flip_ftrack. cbn [ftrack t_vec flip_row]. rewrite theta_flip. reflexivity.
  - apply (map_F _ _ _ _ SF). intros ts (v1 & p1 & v2 & p2 & -> & H1 & H2). unfold th_out, flip_tracks. cbn [fst snd]. rewrite flip_ftrack. cbn [ftrack t_vec flip_row]. rewrite theta_flip. reflexivity.
  - apply (map_F _ _ _ _ SF). intros ts (v1 & p1 & v2 & p2 & -> & H1 & H2). unfold flip_tracks. cbn [fst snd]. rewrite !flip_ftrack. cbn [ftrack t_vec flip_row]. rewrite total_flip. reflexivity.
  - apply (map_F _ _ _ _ SF). intros ts (v1 & p1 & v2 & p2 & -> & H1 & H2). unfold th_in, ph_in, flip_tracks. cbn [fst snd]. rewrite flip_ftrack. cbn [ftrack t_vec flip_row]. destruct (proj_flip v1 H1) as [-> ->]. reflexivity.
  - apply (map_F _ _ _ _ SF). intros ts (v1 & p1 & v2 & p2 & -> & H1 & H2). unfold th_out, ph_out, flip_tracks. cbn [fst snd]. rewrite flip_ftrack. cbn [ftrack t_vec flip_row]. destruct (proj_flip v2 H2) as [-> ->]. reflexivity.
  - apply (map_F _ _ _ _ SF). intros ts (v1 & p1 & v2 & p2 & -> & H1 & H2). unfold th_in, ph_in, th_out, ph_out, flip_tracks. cbn [fst snd]. rewrite !flip_ftrack. cbn [ftrack t_vec flip_row].
    destruct (proj_flip v1 H1) as [-> ->]. destruct (proj_flip v2 H2) as [-> ->]. reflexivity.
  - apply (map_F _ _ _ _ SF). intros ts (v1 & p1 & v2 & p2 & -> & H1 & H2). unfold flip_tracks. cbn [fst snd]. rewrite flip_ftrack, !xyz_in_fin by (rewrite ?z_flip; lra). rewrite !z_flip, line_flip, l3_flip. reflexivity.
  - apply (map_F _ _ _ _ SF). intros ts (v1 & p1 & v2 & p2 & -> & H1 & H2). unfold flip_tracks. cbn [fst snd]. rewrite flip_ftrack, !xyz_out_fin by (rewrite ?z_flip; lra). rewrite !z_flip, line_flip, l3_flip. reflexivity.
Qed.
Lemma not0 x : Fin x <> Fin 0 -> x <> 0. Proof. intros H ->. apply H. reflexivity. Qed.
Lemma phis_flip v : vx (fv v) <> Fin 0 \/ vy (fv v) <> Fin 0 -> mirrored [phi1 (vx (fv v)) (vy (fv v))] [phi1 (vx (fv (flip3 v))) (vy (fv (flip3 v)))].
Proof. destruct v as [[x y] z]. cbn. intros [H|H]; apply not0 in H; apply phi_flip; auto. Qed.
Lemma azimuth_flip zr sb sb' : sound_scatters sb -> sb_tracks sb' = map flip_tracks (sb_tracks sb) -> Forall not_vertical (sb_tracks sb) ->
  value zr sb' DTheta = value zr sb DTheta /\ value zr sb' DPhi = value zr sb DPhi /\
  Forall2 mirrored (value zr sb PhiIn) (value zr sb' PhiIn) /\ Forall2 mirrored (value zr sb PhiOut) (value zr sb' PhiOut).
Proof.
  intros S T V. pose proof (down_tracks _ S) as SF. unfold value. rewrite T. clear S T. induction SF as [|ts l (v1 & p1 & v2 & p2 & -> & H1 & H2) SF IH]; [repeat split; constructor|].
  inversion V as [|? ? [N1 N2] V']; subst. destruct (IH V') as (I1 & I2 & I3 & I4). cbn [map]. rewrite !map_map in *. cbn [fst snd ftrack t_vec] in N1, N2.
  assert (M1 : mirrored [ph_in (ftrack v1 p1, ftrack v2 p2)] [ph_in (flip_tracks (ftrack v1 p1, ftrack v2 p2))]). { unfold ph_in, flip_tracks. cbn [fst snd]. rewrite flip_ftrack. apply phis_flip, N1. }
  assert (M2 : mirrored [ph_out (ftrack v1 p1, ftrack v2 p2)] [ph_out (flip_tracks (ftrack v1 p1, ftrack v2 p2))]). { unfold ph_out, flip_tracks. cbn [fst snd]. rewrite flip_ftrack. apply phis_flip, N2. }
  assert (K : let ts := (ftrack v1 p1, ftrack v2 p2) in let ts' := flip_tracks ts in dtheta_dphi1 (th_in ts') (ph_in ts') (th_out ts') (ph_out ts') = dtheta_dphi1 (th_in ts) (ph_in ts) (th_out ts) (ph_out ts)).
  { cbv zeta. destruct M1 as (a & a' & E1 & E1' & B1 & B1' & Q1), M2 as (b & b' & E2 & E2' & B2 & B2' & Q2). injection E1 as ->. injection E1' as ->. injection E2 as ->. injection E2' as ->.
    unfold th_in, th_out, flip_tracks. cbn [fst snd]. rewrite !flip_ftrack. cbn [ftrack t_vec]. rewrite !theta_flip.
    destruct (theta_spec v1 H1) as (t1 & -> & _). destruct (theta_spec v2 H2) as (t2 & -> & _). rewrite !dtheta_fin, (circ_mirror a b a' b') by assumption. reflexivity. }
  cbv zeta in K. rewrite K. split; [f_equal; exact I1|]. split; [f_equal; exact I2|]. split; constructor; assumption.
Qed.

(* the hits in another order *)
Lemma Rsum_perm l l' : Permutation l l' -> Rsum l = Rsum l'.
Proof. induction 1; unfold Rsum in *; cbn [fold_right] in *; lra. Qed.
Lemma chi2_perm a b ms ms' : Permutation ms ms' -> chi2 a b ms = chi2 a b ms'.
Proof. intro P. unfold chi2. apply Rsum_perm, Permutation_map, P. Qed.
Lemma best_perm a b ms ms' : Permutation ms ms' -> best_line a b ms -> best_line a b ms'.
Proof. intros P [M U]. split; [intros a' b'; rewrite <- !(chi2_perm _ _ _ _ P); apply M|intros a' b' E; rewrite <- !(chi2_perm _ _ _ _ P) in E; apply U, E]. Qed.
Lemma used_perm {A} (f : A -> list R3) l l' : Permutation l l' -> Permutation (flat_map f l) (flat_map f l').
Proof. apply Permutation_flat_map. Qed.
Lemma two_perm ms ms' : Permutation ms ms' -> two_heights ms -> two_heights ms'.
Proof. intros P (m & m' & H & H' & K). exists m, m'. split; [apply (Permutation_in _ P), H|]. split; [apply (Permutation_in _ P), H'|exact K]. Qed.
Lemma fit_order lw lw' hs hs' : Permutation hs hs' -> (2 <= length hs)%nat ->
  (forall h, In h hs -> fit_ok (h_x h) (u_x h) /\ fit_ok (h_y h) (u_y h)) -> two_heights (used_x hs) -> two_heights (used_y hs) ->
  exists t t', trajectory lw (map hit_xyz hs) (map hit_unc hs) = Ok t /\ trajectory lw' (map hit_xyz hs') (map hit_unc hs') = Ok t' /\ same_line t t'.
Proof.
  intros P L H Tx Ty. pose proof (Permutation_length P) as L'. destruct hs as [|h0 [|h1 rest]]; cbn in L; try lia. destruct hs' as [|k0 [|k1 rest']]; cbn in L'; try lia.
  destruct (fit_minimal lw h0 h1 rest H Tx Ty) as (ax & bx & ay & by' & E & Bx & By).
  destruct (fit_minimal lw' k0 k1 rest') as (ax' & bx' & ay' & by'' & E' & Bx' & By').
  - intros h Hh. apply H. apply (Permutation_in _ (Permutation_sym P)), Hh.
  - apply (two_perm _ _ (used_perm _ _ _ P)), Tx.
  - apply (two_perm _ _ (used_perm _ _ _ P)), Ty.
  - destruct (best_unique _ _ _ _ _ (best_perm _ _ _ _ (used_perm _ _ _ P) Bx) Bx') as [-> ->]. destruct (best_unique _ _ _ _ _ (best_perm _ _ _ _ (used_perm _ _ _ P) By) By') as [-> ->].
    eexists. eexists. split; [exact E|]. split; [exact E'|]. exists ax, bx, ay, by', (h_z h0), (h_z h1), (h_z k0), (h_z k1). split; reflexivity.
Qed.

(* all uncertainties times k *)
Lemma used_coarser k x z u : 0 < k -> same_use k u -> used1 x z (xtimes k u) = map (fun m : R3 => let '(x, z, s) := m in (x, z, k * s)) (used1 x z u).
Proof. intros K S. destruct x, u as [s| | |]; try reflexivity. unfold used1, xtimes. specialize (S s eq_refl). destruct (Rlt_dec (k * s) (2 ^ 75)), (Rlt_dec s (2 ^ 75)); try reflexivity; exfalso; tauto. Qed.
Lemma chi2_coarser k a b ms : 0 < k -> (forall m, In m ms -> 0 < snd m) -> k * k * chi2 a b (map (fun m : R3 => let '(x, z, s) := m in (x, z, k * s)) ms) = chi2 a b ms.
Proof.
  intros K. unfold chi2, Rsum. induction ms as [|[[x z] s] ms IH]; intro P; cbn [map fold_right] in *; [ring|]. rewrite <- IH by (intros m H; apply P; right; exact H).
  assert (0 < s) by (apply (P (x, z, s)); left; reflexivity). unfold sq. field. lra.
Qed.
Lemma best_coarser k a b ms : 0 < k -> (forall m, In m ms -> 0 < snd m) -> best_line a b ms -> best_line a b (map (fun m : R3 => let '(x, z, s) := m in (x, z, k * s)) ms).
Proof.
  intros K P [M U]. assert (Q : 0 < k * k) by nra. split.
  - intros a' b'. apply Rmult_le_reg_l with (k * k); [exact Q|]. rewrite !chi2_coarser by assumption. apply M.
  - intros a' b' E. apply (f_equal (Rmult (k * k))) in E. rewrite !chi2_coarser in E by assumption. apply U, E.
Qed.
Lemma used_in x z u m : fit_ok x u -> In m (used1 x z u) -> 0 < snd m.
Proof. intros [_ [->|(s & -> & P & _)]] I; destruct x; unfold used1 in I; try contradiction. destruct (Rlt_dec s (2 ^ 75)); [|contradiction]. destruct I as [<-|[]]. exact P. Qed.
Lemma ok_coarser k x u : 0 < k -> same_use k u -> fit_ok x u -> fit_ok x (xtimes k u).
Proof.
  intros K S [N [->|(s & -> & P & Q)]]; (split; [exact N|]); [left; reflexivity|]. right. exists (k * s). split; [reflexivity|]. split; [apply Rmult_lt_0_compat; assumption|].
  destruct Q as [Q|Q]; [left|right; exact Q]. specialize (S s eq_refl). destruct (Rle_dec (2 ^ 75) (k * s)) as [L|L]; [exact L|exfalso]. assert (k * s < 2 ^ 75) as L' by lra. apply S in L'. lra.
Qed.
Lemma used_x_coarser k hs : 0 < k -> (forall h, In h hs -> same_use k (u_x h)) -> used_x (map (coarser k) hs) = map (fun m : R3 => let '(x, z, s) := m in (x, z, k * s)) (used_x hs).
Proof. intros K S. unfold used_x. induction hs as [|h hs IH]; [reflexivity|]. cbn [map flat_map]. rewrite map_app, IH by (intros; apply S; right; assumption). f_equal. apply used_coarser; [exact K|apply S; left; reflexivity]. Qed.
Lemma used_y_coarser k hs : 0 < k -> (forall h, In h hs -> same_use k (u_y h)) -> used_y (map (coarser k) hs) = map (fun m : R3 => let '(x, z, s) := m in (x, z, k * s)) (used_y hs).
Proof. intros K S. unfold used_y. induction hs as [|h hs IH]; [reflexivity|]. cbn [map flat_map]. rewrite map_app, IH by (intros; apply S; right; assumption). f_equal. apply used_coarser; [exact K|apply S; left; reflexivity]. Qed.
Lemma two_coarser k ms : two_heights ms -> two_heights (map (fun m : R3 => let '(x, z, s) := m in (x, z, k * s)) ms).
Proof. intros ([[x z] s] & [[x' z'] s'] & H & H' & D). exists (x, z, k * s), (x', z', k * s'). split; [apply in_map_iff; eexists; split; [|exact H]; reflexivity|]. split; [apply in_map_iff; eexists; split; [|exact H']; reflexivity|exact D]. Qed.
Lemma fit_units lw lw' k hs : 0 < k -> (2 <= length hs)%nat -> (forall h, In h hs -> same_use k (u_x h) /\ same_use k (u_y h)) ->
  (forall h, In h hs -> fit_ok (h_x h) (u_x h) /\ fit_ok (h_y h) (u_y h)) -> two_heights (used_x hs) -> two_heights (used_y hs) ->
  exists t, trajectory lw (map hit_xyz hs) (map hit_unc hs) = Ok t /\ trajectory lw' (map hit_xyz (map (coarser k) hs)) (map hit_unc (map (coarser k) hs)) = Ok t.
Proof.
  intros K L S H Tx Ty. destruct hs as [|h0 [|h1 rest]]; cbn in L; try lia. set (hs := h0 :: h1 :: rest) in *.
  assert (Ux : used_x (map (coarser k) hs) = map (fun m : R3 => let '(x, z, s) := m in (x, z, k * s)) (used_x hs)) by (apply used_x_coarser; [exact K|intros h Hh; apply S, Hh]).
  assert (Uy : used_y (map (coarser k) hs) = map (fun m : R3 => let '(x, z, s) := m in (x, z, k * s)) (used_y hs)) by (apply used_y_coarser; [exact K|intros h Hh; apply S, Hh]).
  destruct (fit_minimal lw h0 h1 rest H Tx Ty) as (ax & bx & ay & by' & E & Bx & By).
  destruct (fit_minimal lw' (coarser k h0) (coarser k h1) (map (coarser k) rest)) as (ax' & bx' & ay' & by'' & E' & Bx' & By').
  - intros h Hh. change (In h (map (coarser k) hs)) in Hh. apply in_map_iff in Hh as (g & <- & Hg). destruct (H g Hg), (S g Hg). split; apply ok_coarser; assumption.
  - change (two_heights (used_x (map (coarser k) hs))). rewrite Ux. apply two_coarser, Tx.
  - change (two_heights (used_y (map (coarser k) hs))). rewrite Uy. apply two_coarser, Ty.
  - change (best_line ax' bx' (used_x (map (coarser k) hs))) in Bx'. rewrite Ux in Bx'. change (best_line ay' by'' (used_y (map (coarser k) hs))) in By'. rewrite Uy in By'.
    assert (Px : forall m, In m (used_x hs) -> 0 < snd m) by (intros m I; apply in_flat_map in I as (g & G & I); apply (used_in _ _ _ _ (proj1 (H g G)) I)).
    assert (Py : forall m, In m (used_y hs) -> 0 < snd m) by (intros m I; apply in_flat_map in I as (g & G & I); apply (used_in _ _ _ _ (proj2 (H g G)) I)).
    destruct (best_unique _ _ _ _ _ (best_coarser k _ _ _ K Px Bx) Bx') as [-> ->]. destruct (best_unique _ _ _ _ _ (best_coarser k _ _ _ K Py By) By') as [-> ->].
    eexists. split; [exact E|]. exact E'.
Qed.

(* two first hits at the same height *)
Lemma xsub_self a : xsub a a = Fin 0 \/ xsub a a = NaN.
Proof. destruct a; cbn; auto. left. f_equal. ring. Qed.
Lemma trajectory_level lw h0 h1 rest uncs t z : vz h0 = Fin z -> vz h1 = Fin z -> trajectory lw (h0 :: h1 :: rest) uncs = Ok t -> theta1 (t_vec t) = NaN.
Proof.
  destruct h0 as [x0 y0 z0], h1 as [x1 y1 z1]. cbn [vz]. intros -> ->. unfold trajectory. destruct (negb _); [discriminate|]. cbv zeta. destruct (fit_axis _) as [sx ax]. destruct (fit_axis _) as [sy ay]. cbn [map vmap vz xisinf].
  intro E. injection E as <-. cbn [t_vec]. unfold vsub. cbn [vx vy vz]. unfold theta1. cbn [vz]. unfold vnorm, vdot. cbn [vx vy vz].
  destruct (xsub_self (xadd sx (xmul ax (Fin z)))) as [-> | ->], (xsub_self (xadd sy (xmul ay (Fin z)))) as [-> | ->], (xsub_self (Fin z)) as [-> | ->]; cbn; try reflexivity.
  replace (0 * 0 + 0 * 0 + 0 * 0) with 0 by ring. destruct (Rlt_dec 0 0); [lra|]. cbn. rewrite sqrt_0. destruct (Req_EM_T 0 0); [|lra]. unfold inf_of_sign. rewrite Ropp_0. destruct (Rlt_dec 0 0); [lra|]. reflexivity.
Qed.

Lemma keep_level gen lw lw' zr n m ts : tracks1 gen lw n m = Ok ts ->
  level (firstn n (if gen then mh_gen m else mh_reco m)) \/ level (skipn n (if gen then mh_gen m else mh_reco m)) -> keep1 gen lw' zr m ts = false.
Proof.
  unfold tracks1. cbv zeta. destruct (trajectory lw (firstn n _) _) as [ti|] eqn:E1; cbn [bind]; [|discriminate]. destruct (trajectory lw (skipn n _) _) as [to|] eqn:E2; cbn [bind]; [|discriminate].
  intros E L. injection E as <-. unfold keep1. cbn [fst snd].
  assert (T : theta1 (t_vec ti) = NaN \/ theta1 (t_vec to) = NaN).
  { destruct L as [(h0 & h1 & r & z & Eh & Z0 & Z1)|(h0 & h1 & r & z & Eh & Z0 & Z1)]; [left; rewrite Eh in E1; exact (trajectory_level _ _ _ _ _ _ _ Z0 Z1 E1)|right; rewrite Eh in E2; exact (trajectory_level _ _ _ _ _ _ _ Z0 Z1 E2)]. }
  destruct T as [-> | ->]; cbn [xsub xadd xopp xlt]; rewrite ?andb_false_r; reflexivity.
Qed.
Lemma circ_dphi a b : circ a b = dphi0 a b.
Proof.
  assert (M : forall x y, rmin x y = Rmin x y) by (intros x y; unfold rmin, Rmin; destruct (Rleb_spec x y), (Rle_dec x y); lra). unfold circ, dphi0. rewrite !M. reflexivity.
Qed.
