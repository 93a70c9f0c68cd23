From Coq Require Import Reals List String Lra Lia ZArith.
From Verif Require Import Base.Masks Model.Volume Spec.VolumeSpec Spec.LiftSpec Spec.EnlargeSpec Proofs.LiftP.
From Verif Require Import Base.XR.
Open Scope R_scope.
Open Scope string_scope.
Open Scope list_scope.

Section K.
Variable k : R.
Hypothesis Kp : 0 < k.
Notation B := (big k). Notation bm := (big_muon k). Notation bb := (big_batch k).

(* ---------- arithmetic ---------- *)
Definition grow (a : xr) : xr := match a with Fin x => Fin (k * x) | _ => a end.
Lemma sgn_k x : inf_of_sign (k * x) = inf_of_sign x.
Proof. unfold inf_of_sign. destruct (Rlt_dec 0 (k * x)), (Rlt_dec 0 x), (Rlt_dec (k * x) 0), (Rlt_dec x 0); try reflexivity; nra. Qed.
Lemma B_grow a : B a = grow a.
Proof. unfold big. destruct a; cbn; try reflexivity; unfold inf_of_sign; repeat destruct (Rlt_dec _ _); try reflexivity; lra. Qed.
Lemma B_fin x : Fin (k * x) = B (Fin x). Proof. reflexivity. Qed.
Lemma B_add a b : xadd (B a) (B b) = B (xadd a b).
Proof. rewrite !B_grow. destruct a, b; cbn; try reflexivity. f_equal. ring. Qed.
Lemma B_opp a : xopp (B a) = B (xopp a).
Proof. rewrite !B_grow. destruct a; cbn; try reflexivity. f_equal. ring. Qed.
Lemma B_sub a b : xsub (B a) (B b) = B (xsub a b).
Proof. unfold xsub. now rewrite B_opp, B_add. Qed.
Lemma B_inf x : grow (inf_of_sign x) = inf_of_sign x.
Proof. unfold inf_of_sign. repeat destruct (Rlt_dec _ _); reflexivity. Qed.
Lemma B_mul a b : xmul (B a) b = B (xmul a b).
Proof.
  rewrite !B_grow. destruct a, b; cbn; rewrite ?B_inf, ?sgn_k; try reflexivity; try (f_equal; ring).
  replace (- (k * r)) with (k * - r) by ring. apply sgn_k.
Qed.
Lemma B_mul_r a b : xmul a (B b) = B (xmul a b).
Proof.
  rewrite !B_grow. destruct a, b; cbn; rewrite ?B_inf, ?sgn_k; try reflexivity; try (f_equal; ring).
  replace (- (k * r)) with (k * - r) by ring. apply sgn_k.
Qed.
Lemma B_div a b : xdiv (B a) b = B (xdiv a b).
Proof.
  rewrite !B_grow. destruct a, b; cbn; try reflexivity; repeat (destruct (Req_EM_T _ _) || destruct (Rlt_dec _ _)); rewrite ?B_inf, ?sgn_k; try reflexivity; cbn; f_equal; unfold Rdiv; ring.
Qed.
Lemma B_ratio a y : xdiv (B a) (Fin (k * y)) = xdiv a (Fin y).
Proof.
  rewrite B_grow. destruct a; cbn; try reflexivity.
  - destruct (Req_EM_T (k * y) 0), (Req_EM_T y 0); [apply sgn_k|exfalso; nra|exfalso; subst; apply n; ring|]. f_equal. field. split; lra.
  - destruct (Rlt_dec (k * y) 0), (Rlt_dec y 0); try reflexivity; nra.
  - destruct (Rlt_dec (k * y) 0), (Rlt_dec y 0); try reflexivity; nra.
Qed.
Lemma B_lt a b : xlt (B a) (B b) = xlt a b.
Proof. rewrite !B_grow. destruct a, b; cbn; try reflexivity. unfold Rltb. destruct (Rlt_dec (k * r) (k * r0)), (Rlt_dec r r0); try reflexivity; nra. Qed.
Lemma B_le a b : xle (B a) (B b) = xle a b.
Proof. rewrite !B_grow. destruct a, b; cbn; try reflexivity. destruct (Rleb_spec (k * r) (k * r0)), (Rleb_spec r r0); try reflexivity; nra. Qed.
Lemma B_zero : B (Fin 0) = Fin 0. Proof. cbn. f_equal. ring. Qed.
Lemma Rmax_k x y : Rmax (k * x) (k * y) = k * Rmax x y.
Proof. unfold Rmax. destruct (Rle_dec (k * x) (k * y)), (Rle_dec x y); nra. Qed.
Lemma Rmin_k x y : Rmin (k * x) (k * y) = k * Rmin x y.
Proof. unfold Rmin. destruct (Rle_dec (k * x) (k * y)), (Rle_dec x y); nra. Qed.
Lemma B_clamp s a : xclamp 0 (k * s) (B a) = B (xclamp 0 s a).
Proof.
  rewrite !B_grow. replace 0 with (k * 0) at 1 by ring.
  destruct a; cbn; try reflexivity; f_equal; unfold Rclamp; rewrite ?Rmax_k, ?Rmin_k; reflexivity.
Qed.
Lemma floor_k x s : Rfloor (k * x / (k * s)) = Rfloor (x / s).
Proof. f_equal. unfold Rdiv. rewrite Rinv_mult. replace (k * x * (/ k * / s)) with (k * / k * (x * / s)) by ring. rewrite Rinv_r by lra. ring. Qed.
Lemma abs_k s v : abs2idx1 (k * s) (B v) = abs2idx1 s v.
Proof. rewrite B_grow. destruct v; cbn; try reflexivity. now rewrite floor_k. Qed.

(* ---------- lists ---------- *)
Lemma map2_along {X X' Y Y' Z Z'} (F : X -> X') (G : Y -> Y') (H : Z -> Z') f f' l : (forall x y, f' (F x) (G y) = H (f x y)) -> forall d, map2 f' (map F l) (map G d) = map H (map2 f l d).
Proof. intro E. induction l as [|a l IH]; intros [|x d]; try reflexivity. cbn. now rewrite E, IH. Qed.
Lemma map2_left {X X' Y Z Z'} (F : X -> X') (H : Z -> Z') f f' l : (forall x (y : Y), f' (F x) y = H (f x y)) -> forall d, map2 f' (map F l) d = map H (map2 f l d).
Proof. intro E. induction l as [|a l IH]; intros [|x d]; try reflexivity. cbn. now rewrite E, IH. Qed.
Definition big_arg (G : xr -> xr) (a : arg) : arg := match a with Sc v => Sc (G v) | Vec vs => Vec (map G vs) end.
Lemma bcast_along (F G H : xr -> xr) f l a : (forall x y, f (F x) (G y) = H (f x y)) -> bcast f (map F l) (big_arg G a) = rmap (map H) (bcast f l a).
Proof.
  intro E. unfold bcast. destruct a as [v|vs]; cbn [big_arg]; [cbn; f_equal; rewrite !map_map; apply map_ext; intro; apply E|]. rewrite !map_length. destruct (_ =? _)%nat; [cbn; f_equal; now apply map2_along|].
  assert (E1 : forall x w, map (fun v => f (F x) v) (map G w) = map H (map (fun v => f x v) w)). { intros x w. rewrite !map_map. apply map_ext. intro. apply E. }
  assert (E2 : forall v, map (fun x => f x (G v)) (map F l) = map H (map (fun x => f x v) l)). { intro v. rewrite !map_map. apply map_ext. intro. apply E. }
  destruct vs as [|v [|v' vs]].
  - destruct l as [|x [|y l]]; reflexivity.
  - cbn [map rmap]. now rewrite E2.
  - destruct l as [|x [|y l]]; try reflexivity. cbn [map rmap]. f_equal. apply (E1 x (v :: v' :: vs)).
Qed.
Lemma bcast_in_along (F G H : xr -> xr) f l a : (forall x y, f (F x) (G y) = H (f x y)) -> bcast_in f (map F l) (big_arg G a) = rmap (map H) (bcast_in f l a).
Proof. intro E. unfold bcast_in. apply (bind_along (map H)); [now apply bcast_along|]. intros v _. rewrite !map_length. destruct (_ =? _)%nat; reflexivity. Qed.

(* ---------- columns ---------- *)
Definition plain (c : column) : Prop := (forall u, cget c (bm u) = cget c u) /\ forall u v, cset c (bm u) v = bm (cset c u v).
Definition length_col (c : column) : Prop := (forall u, cget c (bm u) = B (cget c u)) /\ forall u v, cset c (bm u) (B v) = bm (cset c u v).
Lemma plain_th : plain cth. Proof. split; reflexivity. Qed.
Lemma plain_ph : plain cph. Proof. split; reflexivity. Qed.
Lemma len_x : length_col cx. Proof. split; reflexivity. Qed.
Lemma len_y : length_col cy. Proof. split; reflexivity. Qed.
Lemma len_z : length_col cz. Proof. split; reflexivity. Qed.
Lemma pindex c m ms : plain c -> col_index c m (map bm ms) = col_index c m ms.
Proof. intros [G _]. unfold col_index, MuonBatch.col. rewrite map_map. now rewrite (map_ext _ _ G). Qed.
Lemma passign c m ms v : plain c -> col_assign c m (map bm ms) v = rmap (map bm) (col_assign c m ms v).
Proof.
  intros [G S]. unfold col_assign, MuonBatch.col. rewrite map_map, (map_ext _ _ G). apply bind_same; [reflexivity|]. intros w _. cbn. f_equal.
  clear - S. revert w. induction ms as [|u ms IH]; intros [|x w]; try reflexivity. cbn. now rewrite S, IH.
Qed.
Lemma lindex c m ms : length_col c -> col_index c m (map bm ms) = rmap (map B) (col_index c m ms).
Proof. intros [G _]. unfold col_index, MuonBatch.col. rewrite <- index_along, !map_map. now rewrite (map_ext _ _ G). Qed.
Lemma lassign c m ms v : length_col c -> col_assign c m (map bm ms) (map B v) = rmap (map bm) (col_assign c m ms v).
Proof.
  intros [G S]. unfold col_assign, MuonBatch.col. apply (bind_along (map B)); [rewrite <- assign_along, !map_map; now rewrite (map_ext _ _ G)|]. intros w _. cbn [rmap bind]. f_equal.
  clear - S. revert w. induction ms as [|u ms IH]; intros [|x w]; try reflexivity. cbn [map map2]. now rewrite S, IH.
Qed.
Lemma ladd c m d ms : length_col c -> add_opt c m (option_map (big_arg B) d) (map bm ms) = rmap (map bm) (add_opt c m d ms).
Proof.
  intros L. unfold add_opt. destruct d as [a|]; [|reflexivity]. cbn [option_map]. apply (bind_along (map B)); [now apply lindex|]. intros old _.
  apply (bind_along (map B)); [apply bcast_along, B_add|]. intros new _. now apply lassign.
Qed.
Lemma dz_k m dz ms : propagate_dz_ms m (big_arg B dz) (map bm ms) = rmap (map bm) (propagate_dz_ms m dz ms).
Proof.
  unfold propagate_dz_ms. apply bind_same; [apply pindex, plain_th|]. intros th _. apply bind_same; [apply pindex, plain_ph|]. intros ph _.
  apply (bind_along (map B)). { rewrite <- (map_id (map xcos th)) at 1. apply bcast_in_along. intros. apply B_div. }
  intros r _. cbv zeta. rewrite (map2_left B B xmul xmul) by (intros; apply B_mul).
  apply (bind_along (map B)); [apply lindex, len_x|]. intros x _. rewrite (map2_left B B xmul xmul) by (intros; apply B_mul). rewrite (map2_along B B B xadd xadd) by (intros; apply B_add).
  apply (bind_along (map bm)); [apply lassign, len_x|]. intros ms1 _. apply (bind_along (map B)); [apply lindex, len_y|]. intros y _.
  rewrite (map2_left B B xmul xmul) by (intros; apply B_mul). rewrite (map2_along B B B xadd xadd) by (intros; apply B_add).
  apply (bind_along (map bm)); [apply lassign, len_y|]. intros ms2 _. apply (bind_along (map B)); [apply lindex, len_z|]. intros z _.
  apply (bind_along (map B)); [apply bcast_in_along, B_sub|]. intros z' _. apply lassign, len_z.
Qed.
Lemma d_k m d ms : propagate_d_ms m (big_arg B d) (map bm ms) = rmap (map bm) (propagate_d_ms m d ms).
Proof.
  unfold propagate_d_ms. apply bind_same; [apply pindex, plain_th|]. intros th _. apply bind_same; [apply pindex, plain_ph|]. intros ph _.
  apply (bind_along (map B)). { rewrite <- (map_id (map xsin th)) at 1. apply bcast_in_along. intros. apply B_mul. }
  intros r _. apply (bind_along (map B)); [apply lindex, len_x|]. intros x _. rewrite (map2_left B B xmul xmul) by (intros; apply B_mul). rewrite (map2_along B B B xadd xadd) by (intros; apply B_add).
  apply (bind_along (map bm)); [apply lassign, len_x|]. intros ms1 _. apply (bind_along (map B)); [apply lindex, len_y|]. intros y _.
  rewrite (map2_left B B xmul xmul) by (intros; apply B_mul). rewrite (map2_along B B B xadd xadd) by (intros; apply B_add).
  apply (bind_along (map bm)); [apply lassign, len_y|]. intros ms2 _. apply (bind_along (map B)); [apply lindex, len_z|]. intros z _.
  apply (bind_along (map B)). { rewrite <- (map_id (map xcos th)) at 1. apply bcast_in_along. intros. apply B_mul. }
  intros dc _. rewrite (map2_along B B B xsub xsub) by (intros; apply B_sub). apply lassign, len_z.
Qed.
Lemma dxy_k m a b ms : dtheta_xy_part m a b (map bm ms) = rmap (map bm) (dtheta_xy_part m a b ms).
Proof.
  unfold dtheta_xy_part. apply bind_same; [apply pindex, plain_th|]. intros th _. apply bind_same; [apply pindex, plain_ph|]. intros ph _. cbv zeta.
  apply bind_same; [reflexivity|]. intros tx _. apply bind_same; [reflexivity|]. intros ty _.
  apply (bind_along (map bm)); [apply passign, plain_th|]. intros ms1 _. apply passign, plain_ph.
Qed.

(* ---------- batches ---------- *)
Lemma bb_muons b : b_muons (bb b) = map bm (b_muons b). Proof. reflexivity. Qed.
Lemma bb_with b ms : with_muons (bb b) (map bm ms) = bb (with_muons b ms). Proof. reflexivity. Qed.
Lemma kmask_len m b : mask_or_ones (List.length (b_muons (bb b))) m = mask_or_ones (List.length (b_muons b)) m.
Proof. rewrite bb_muons, map_length. reflexivity. Qed.
Lemma dz_kb dz m b : propagate_dz (big_arg B dz) m (bb b) = rmap bb (propagate_dz dz m b).
Proof. unfold propagate_dz. rewrite kmask_len. apply (bind_along (map bm)); [apply dz_k|]. intros ms _. cbn. now rewrite bb_with. Qed.
Lemma dzv_kb v m b : propagate_dz (Vec (map B v)) m (bb b) = rmap bb (propagate_dz (Vec v) m b).
Proof. exact (dz_kb (Vec v) m b). Qed.
Lemma d_kb d m b : propagate_d (big_arg B d) m (bb b) = rmap bb (propagate_d d m b).
Proof. unfold propagate_d. rewrite kmask_len. apply (bind_along (map bm)); [apply d_k|]. intros ms _. cbn. now rewrite bb_with. Qed.
Lemma dxyz_kb x y z m b : scatter_dxyz (option_map (big_arg B) x) (option_map (big_arg B) y) (option_map (big_arg B) z) m (bb b) = rmap bb (scatter_dxyz x y z m b).
Proof.
  unfold scatter_dxyz. rewrite kmask_len. cbv zeta. apply (bind_along (map bm)); [apply ladd, len_x|]. intros m1 _.
  apply (bind_along (map bm)); [apply ladd, len_y|]. intros m2 _. apply (bind_along (map bm)); [apply ladd, len_z|]. intros m3 _. cbn. now rewrite bb_with.
Qed.
Lemma krows_index name m t : bool_index m (big_rows k name t) = rmap (big_rows k name) (bool_index m t).
Proof. unfold big_rows. destruct (_ || _)%bool; [apply index_along|]. now destruct (bool_index m t). Qed.
Lemma filter_kb keep b : filter_muons keep (bb b) = rmap bb (filter_muons keep b).
Proof.
  unfold filter_muons. rewrite bb_muons, map_length. destruct (Nat.ltb _ _); [|reflexivity].
  apply (bind_along (map bm)); [apply index_along|]. intros gone _. cbv zeta. apply (bind_along (map bm)); [apply index_along|]. intros ms _.
  apply (bind_along (big_hits k)).
  - unfold big_hits. cbn [big_batch b_hits]. unfold big_hits. apply (mapM_along (fun pv : string * list (string * list (list hrow)) => (fst pv, map (big_var k) (snd pv)))).
    intros [p vs]. cbn [fst snd]. apply (bind_along (map (big_var k))); [|reflexivity]. apply (mapM_along (big_var k)). intros [n ts]. unfold big_var. cbn [fst snd].
    apply (bind_along (map (big_rows k n))); [|reflexivity]. apply mapM_along. intro t. apply krows_index.
  - intros hits _. cbn. unfold big_batch. cbn. f_equal. f_equal. destruct (b_removed b); cbn; [now rewrite map_app|reflexivity].
Qed.
Lemma up_kb b : remove_upwards_muons (bb b) = rmap bb (remove_upwards_muons b).
Proof. unfold remove_upwards_muons. rewrite bb_muons, map_map. apply filter_kb. Qed.
Lemma dthxy_kb x y m b : scatter_dtheta_xy x y m (bb b) = rmap bb (scatter_dtheta_xy x y m b).
Proof.
  unfold scatter_dtheta_xy. rewrite kmask_len. cbv zeta. apply (bind_along (map bm)); [apply dxy_k|]. intros ms _. rewrite bb_with. apply up_kb.
Qed.
Lemma xymask_kb lx ly b : get_xy_mask (Some (Fin 0, Fin 0)) (Some (Fin (k * lx), Fin (k * ly))) (bb b) = get_xy_mask (Some (Fin 0, Fin 0)) (Some (Fin lx, Fin ly)) b.
Proof.
  unfold get_xy_mask. rewrite bb_muons, map_map. apply map_ext. intro u. unfold in_xy. cbn [fst snd big_muon mx my]. rewrite !B_fin, <- B_zero, !B_le, !B_lt. now rewrite !B_zero.
Qed.
Lemma snap_kb b : snapshot_xyz (bb b) = bb (snapshot_xyz b).
Proof. unfold snapshot_xyz, big_batch. cbn. f_equal. rewrite map_app. cbn. rewrite !map_map. reflexivity. Qed.

(* ---------- passive layers ---------- *)
Lemma bot_k L : pl_bot (big_passive k L) = k * pl_bot L.
Proof. unfold pl_bot. cbn. ring. Qed.
Lemma rel_k a ms : map (fun u => xsub (mz u) (Fin (k * a))) (map bm ms) = map B (map (fun u => xsub (mz u) (Fin a)) ms).
Proof. rewrite !map_map. apply map_ext. intro u. cbn [big_muon mz]. now rewrite B_fin, B_sub. Qed.
Lemma index_k {A A'} (f : A -> A') l i : int_index (map f l) i = rmap f (int_index l i).
Proof. unfold int_index. rewrite map_length. cbv zeta. set (j := if Z.ltb i 0 then _ else _). destruct (Z.ltb j 0); [reflexivity|]. rewrite nth_error_map. destruct (nth_error l (Z.to_nat j)); reflexivity. Qed.
Lemma lookup_k L rad u : lookup_x0 (big_passive k L) (map (map (Rmult k)) rad) (bm u) = rmap (Rmult k) (lookup_x0 L rad u).
Proof.
  unfold lookup_x0. cbn [big_passive pl_size big_muon mx my]. rewrite !abs_k. destruct (abs2idx1 (pl_size L) (mx u)), (abs2idx1 (pl_size L) (my u)); try reflexivity.
  apply (bind_along (map (Rmult k))); [apply index_k|]. intros row _. apply index_k.
Qed.
Definition big_scat (s : scattering) : scattering :=
  Scat (s_dtheta_x_vol s) (s_dtheta_y_vol s) (B (s_dx_vol s)) (B (s_dy_vol s)) (B (s_dz_vol s)) (s_dtheta_x_m s) (s_dtheta_y_m s).
Lemma where_k c a b : xwhere c (B a) (B b) = B (xwhere c a b). Proof. destruct c; reflexivity. Qed.
Lemma pdg_k x0 th ph tx ty p st d : pdg_scatter1 (Fin (k * x0)) th ph tx ty p (B st) d = big_scat (pdg_scatter1 (Fin x0) th ph tx ty p st d).
Proof.
  unfold pdg_scatter1. cbv zeta. rewrite !B_ratio. set (t0 := xmul (xmul _ _) _). unfold big_scat. cbn [s_dtheta_x_vol s_dtheta_y_vol s_dx_vol s_dy_vol s_dz_vol s_dtheta_x_m s_dtheta_y_m].
  rewrite !(B_mul st), !B_mul, !B_opp, !B_mul, !B_sub, !where_k. f_equal. rewrite <- where_k. now rewrite B_zero.
Qed.
Lemma scatter_kb L rng mask b : scatter_and_propagate (big_passive k L) rng mask (bb b) = rmap bb (scatter_and_propagate L rng mask b).
Proof.
  unfold scatter_and_propagate. cbn [big_passive pl_rad pl_lx pl_ly pl_step]. destruct (pl_rad L) as [rad|] eqn:Er; cbn [option_map]; [|apply (d_kb (Sc (Fin (pl_step L))))].
  apply bind_same; [now rewrite xymask_kb|]. intros sm _. apply (bind_along (map bm)); [rewrite bb_muons; apply index_along|]. intros sel _.
  apply (bind_along (map (Rmult k))); [apply mapM_along; intro; apply lookup_k|].
  intros x0 _. cbv zeta. rewrite map_map, bot_k.
  set (st := map (fun u => if xlt (xdiv (xsub (mz u) (Fin (pl_bot L))) (xcos (mth u))) (Fin (pl_step L)) then xdiv (xsub (mz u) (Fin (pl_bot L))) (xcos (mth u)) else Fin (pl_step L)) sel).
  match goal with |- context [map2 _ (map2 pair (map bm sel) _) (map ?f sel)] => assert (E : map f sel = map B st) end.
  { unfold st. rewrite map_map. apply map_ext. intro u. cbn [big_muon mz mth]. rewrite !B_fin, B_sub, B_div, B_lt. destruct (xlt _ _); reflexivity. }
  rewrite E. clear E. clearbody st.
  apply (bind_along (map big_scat)).
  { unfold compute_scattering. cbn [big_passive pl_model]. destruct (String.eqb _ "pdg"); [|destruct (String.eqb _ _); reflexivity]. cbn [rmap]. f_equal.
    rewrite (map2_along bm (Rmult k) (fun q : muon * R => (bm (fst q), k * snd q)) pair pair) by reflexivity.
    rewrite (map2_along (fun q : muon * R => (bm (fst q), k * snd q)) B (fun q : muon * R * xr => (bm (fst (fst q)), k * snd (fst q), B (snd q))) (fun ux st => (ux, st)) (fun ux st => (ux, st))) by reflexivity.
    rewrite map_length. rewrite (map2_left _ big_scat (fun (q : muon * R * xr) d => let '(u, x0, st) := q in pdg_scatter1 (Fin x0) (mth u) (mph u) (mu_theta_x u) (mu_theta_y u) (mp u) st d)); [reflexivity|].
    intros [[u x] s] d. cbn [fst snd big_muon mth mph mp]. change (mu_theta_x (bm u)) with (mu_theta_x u). change (mu_theta_y (bm u)) with (mu_theta_y u). apply pdg_k. }
  intros sc _. apply (bind_along bb).
  { rewrite <- (dxyz_kb (Some (Vec (map s_dx_vol sc))) (Some (Vec (map s_dy_vol sc))) (Some (Vec (map s_dz_vol sc)))). cbn [option_map big_arg]. rewrite !map_map. reflexivity. }
  intros b1 _. apply (bind_along bb); [apply (d_kb (Sc (Fin (pl_step L))))|]. intros b2 _. cbv zeta. rewrite bb_muons, rel_k.
  set (dz := map (fun u => xsub (mz u) (Fin (pl_bot L))) (b_muons b2)). clearbody dz.
  apply bind_same. { f_equal. rewrite map_map. apply map_ext. intro v. rewrite <- B_zero at 1. apply B_lt. }
  intros em _. apply (bind_along (map B)); [apply index_along|]. intros de _.
  apply (bind_along bb); [apply (dz_kb (Vec de))|]. intros b3 _. rewrite !map_map. apply dthxy_kb.
Qed.
Lemma loop_kb L rng fuel : forall n mask b, layer_loop (big_passive k L) rng fuel n mask (bb b) = orup bb (layer_loop L rng fuel n mask b).
Proof.
  induction fuel as [|fuel IH]; intros n mask b; cbn [layer_loop]; destruct (existsb _ mask); try reflexivity.
  rewrite scatter_kb. destruct (scatter_and_propagate L (rng n) mask b) as [b'|e]; [|reflexivity]. cbn [rmap]. rewrite <- IH. f_equal.
  rewrite bb_muons, map_map. apply map_ext. intro u. unfold in_layer. rewrite bot_k. cbn [big_passive pl_z big_muon mz]. now rewrite !B_fin, B_lt, B_le.
Qed.
Lemma layer_kb L rng fuel b : layer_forward (big_passive k L) rng fuel (bb b) = orup bb (layer_forward L rng fuel b).
Proof.
  unfold layer_forward. rewrite bb_muons. cbn [big_passive pl_z]. rewrite rel_k, dzv_kb. destruct (propagate_dz _ None b) as [b1|e]; [|reflexivity]. cbn [rmap].
  rewrite bb_muons, map_length, loop_kb. destruct (layer_loop L rng fuel 0 _ b1) as [[b2|e]|]; try reflexivity. cbn [orup option_map rmap].
  rewrite bb_muons, bot_k, rel_k, dzv_kb. reflexivity.
Qed.

(* ---------- detector layers ---------- *)
Lemma spx P : span_x (big_panel k P) = k * span_x P. Proof. unfold span_x. cbn. ring. Qed.
Lemma spy P : span_y (big_panel k P) = k * span_y P. Proof. unfold span_y. cbn. ring. Qed.
Lemma B_res g r : xdiv (Fin g) (Fin (r / k)) = B (xdiv (Fin g) (Fin r)).
Proof.
  rewrite B_grow. cbn. destruct (Req_EM_T (r / k) 0) as [E|E], (Req_EM_T r 0) as [E'|E'].
  - symmetry. apply B_inf.
  - exfalso. apply E'. replace r with (r / k * k) by (field; lra). rewrite E. ring.
  - exfalso. apply E. rewrite E'. unfold Rdiv. ring.
  - cbn. f_equal. field. split; lra.
Qed.
Lemma hit_k P g x y : pn_real P = true ->
  hit1 (big_panel k P) false g (B x) (B y) = rmap (fun q => (map B (fst (fst (fst q))), map B (snd (fst (fst q))), map B (snd (fst q)), snd q)) (hit1 P false g x y).
Proof.
  intro Hr. unfold hit1. cbv zeta. rewrite spx, spy. cbn [big_panel pn_x pn_y pn_z pn_real]. rewrite Hr.
  replace (k * pn_x P - k * span_x P / 2) with (k * (pn_x P - span_x P / 2)) by field. replace (k * pn_y P - k * span_y P / 2) with (k * (pn_y P - span_y P / 2)) by field.
  replace (k * pn_x P + k * span_x P / 2) with (k * (pn_x P + span_x P / 2)) by field. replace (k * pn_y P + k * span_y P / 2) with (k * (pn_y P + span_y P / 2)) by field.
  set (i := in_xy _ _ (Mu (B x) (B y) NaN NaN NaN NaN)). set (i' := in_xy _ _ (Mu x y NaN NaN NaN NaN)).
  assert (Ei : i = i') by (unfold i, i', in_xy; cbn [fst snd mx my]; now rewrite !B_fin, !B_le, !B_lt). rewrite Ei. clear i Ei. clearbody i'.
  unfold get_resolution1, get_efficiency1. cbn [big_panel pn_real pn_res pn_eff pn_resp]. rewrite Hr. cbn [orb negb andb].
  destruct i'; cbn [bind rmap fst snd map].
  - rewrite !B_fin, !B_res, !B_sub, !B_add, !B_clamp, !B_add, B_zero. reflexivity.
  - replace (Fin 0) with (Fin (0 / k)) at 1 2 3 4 by (f_equal; unfold Rdiv; ring). rewrite !B_fin, !B_res, !B_sub, !B_add, B_zero. reflexivity.
Qed.
Lemma hits_kb P rng ms : pn_real P = true ->
  panel_hits (big_panel k P) false rng (map bm ms) = rmap (map (fun kv => (fst kv, big_rows k (fst kv) (snd kv)))) (panel_hits P false rng ms).
Proof.
  intro Hr. unfold panel_hits. rewrite map_length.
  set (F := fun q : hrow * hrow * hrow * hrow => (map B (fst (fst (fst q))), map B (snd (fst (fst q))), map B (snd (fst q)), snd q)).
  apply (bind_along (map F)).
  - assert (E : forall s, combine s (map bm ms) = map (fun iu : nat * muon => (fst iu, bm (snd iu))) (combine s ms)).
    { revert ms. induction ms as [|u ms IH]; intros [|i s]; try reflexivity. cbn. now rewrite IH. }
    rewrite E. apply mapM_along. intros [i u]. cbn [fst snd big_muon mx my]. now apply hit_k.
  - intros rows _. cbn. unfold big_rows. cbn. rewrite !map_map. reflexivity.
Qed.
Lemma append_kb hits pos b : append_hits (map (fun kv => (fst kv, big_rows k (fst kv) (snd kv))) hits) pos (bb b) = bb (append_hits hits pos b).
Proof.
  unfold append_hits, big_batch. cbn. f_equal. generalize (b_hits b). induction hits as [|[n t] hits IH]; intro d; [reflexivity|]. cbn [map fold_left fst snd].
  rewrite <- IH. f_equal. symmetry. unfold big_hits.
  apply (dict_along (fun _ vs => map (big_var k) vs)); [reflexivity|]. intro vs. unfold big_var.
  apply (dict_along (fun n ts => map (big_rows k n) ts)); [reflexivity|]. intro l. rewrite map_app. reflexivity.
Qed.
Section S.
Variable argsort : list R -> list nat.
Hypothesis Cmp : by_comparison argsort.
Lemma order_k D : panel_zorder argsort (big_det k D) = panel_zorder argsort D.
Proof.
  unfold panel_zorder. f_equal. cbn [big_det dl_panels]. rewrite map_map. cbn. symmetry. apply Cmp; [now rewrite !map_length|]. rewrite map_length. intros i j Hi Hj.
  assert (E : forall i, (i < List.length (dl_panels D))%nat -> nth i (map (fun P => k * pn_z P) (dl_panels D)) 0 = k * nth i (map pn_z (dl_panels D)) 0).
  { intros n Hn. rewrite (nth_indep _ 0 (k * 0)) by now rewrite map_length. rewrite <- (map_map pn_z (fun z => k * z)). now rewrite (map_nth (fun z => k * z)). }
  rewrite !E by assumption. split; nra.
Qed.
Definition real_det (D : detlayer) : Prop := Forall (fun P => pn_real P = true) (dl_panels D).
Lemma visit_k D rng order : real_det D -> forall n b, visit_panels (big_det k D) false rng order n (bb b) = rmap bb (visit_panels D false rng order n b).
Proof.
  intro Hr. induction order as [|i order IH]; intros n b; [reflexivity|]. cbn [visit_panels big_det dl_panels dl_pos]. rewrite nth_error_map.
  destruct (nth_error (dl_panels D) i) as [P|] eqn:EP; [|reflexivity]. cbn [option_map]. cbn [big_panel pn_z]. rewrite bb_muons, rel_k.
  apply (bind_along bb); [apply dzv_kb|]. intros b1 _. rewrite bb_muons.
  eapply bind_along; [apply hits_kb|]. { unfold real_det in Hr. rewrite Forall_forall in Hr. apply Hr. eapply nth_error_In; eauto. }
  intros hits _. rewrite append_kb. apply IH.
Qed.
Lemma det_k D rng b : real_det D -> det_forward argsort (big_det k D) false rng (bb b) = rmap bb (det_forward argsort D false rng b).
Proof.
  intro Hr. unfold det_forward. rewrite order_k. apply (bind_along bb); [now apply visit_k|]. intros b1 _. cbn [big_det dl_z dl_size]. rewrite bb_muons.
  replace (k * dl_z D - k * dl_size D) with (k * (dl_z D - dl_size D)) by ring. rewrite rel_k. apply dzv_kb.
Qed.

(* ---------- volumes ---------- *)
Lemma cross_k o ls : Forall (fun P => pn_real P = true) (all_panels ls) -> forall n b, cross_layers argsort false o (map (big_layer k) ls) n (bb b) = orup bb (cross_layers argsort false o ls n b).
Proof.
  induction ls as [|l ls IH]; intros Hr n b; [reflexivity|]. cbn [map cross_layers]. destruct l as [L|D]; cbn [big_layer].
  - rewrite layer_kb. destruct (layer_forward L _ _ b) as [[b'|e]|]; try reflexivity. cbn [orup option_map rmap]. rewrite snap_kb. now apply IH.
  - unfold all_panels in Hr. cbn in Hr. apply Forall_app in Hr as [H1 H2]. rewrite det_k by assumption. destruct (det_forward argsort D false _ b) as [b'|e]; [|reflexivity]. cbn [rmap]. rewrite snap_kb. now apply IH.
Qed.
Lemma budget_panel c P : panel_assign_budget c (big_panel k P) = big_panel k (panel_assign_budget c P).
Proof.
  unfold panel_assign_budget, with_scale, big_panel. cbn. f_equal. do 2 f_equal. field. lra.
Qed.
Lemma set_nth_k c ps : forall i, set_nth (map (big_panel k) ps) i (panel_assign_budget c) = map (big_panel k) (set_nth ps i (panel_assign_budget c)).
Proof. induction ps as [|P ps IH]; intros [|i]; try reflexivity; cbn; [now rewrite budget_panel|]. now rewrite IH. Qed.
Lemma give_k order : forall bud ps, give_budgets order bud (map (big_panel k) ps) = rmap (map (big_panel k)) (give_budgets order bud ps).
Proof. induction order as [|j order IH]; intros [|c bud] ps; try reflexivity. cbn [give_budgets]. now rewrite set_nth_k, IH. Qed.
Lemma det_budget_k bud D : det_assign_budget argsort bud (big_det k D) = rmap (big_det k) (det_assign_budget argsort bud D).
Proof. unfold det_assign_budget. rewrite order_k. apply (bind_along (map (big_panel k))); [apply give_k|]. intros ps _. reflexivity. Qed.
Lemma layers_k ls : forall sh, give_layers argsort sh (map (big_layer k) ls) = rmap (map (big_layer k)) (give_layers argsort sh ls).
Proof.
  induction ls as [|[L|D] ls IH]; intro sh; [reflexivity| |]; cbn [map big_layer give_layers].
  - apply (bind_along (map (big_layer k))); [apply IH|]. reflexivity.
  - unfold n_costs. cbn [big_det dl_panels]. rewrite map_length. apply (bind_along (big_det k)); [apply det_budget_k|]. intros D' _.
    apply (bind_along (map (big_layer k))); [apply IH|]. reflexivity.
Qed.
Lemma budget_k V : assign_budget argsort (big_volume k V) = rmap (big_volume k) (assign_budget argsort V).
Proof.
  unfold assign_budget. cbn [big_volume v_budget v_weights v_layers v_target]. destruct (v_budget V) as [c|] eqn:E; [|cbn; unfold big_volume; rewrite E; reflexivity].
  apply (bind_along (map (big_layer k))); [apply layers_k|]. intros ls _. cbn. unfold big_volume. cbn. reflexivity.
Qed.
Lemma set_real c ps : forall i, Forall (fun P => pn_real P = true) ps -> Forall (fun P => pn_real P = true) (set_nth ps i (panel_assign_budget c)).
Proof. induction ps as [|P ps IH]; intros [|i] F; inversion F; subst; cbn; constructor; auto. Qed.
Lemma give_real order : forall bud ps ps', give_budgets order bud ps = Ok ps' -> Forall (fun P => pn_real P = true) ps -> Forall (fun P => pn_real P = true) ps'.
Proof.
  induction order as [|j order IH]; intros [|c bud] ps ps' E F; cbn in E; try discriminate; try (injection E as <-; exact F). eapply IH; [exact E|]. now apply set_real.
Qed.
Lemma layers_real ls : forall sh ls', give_layers argsort sh ls = Ok ls' -> Forall (fun P => pn_real P = true) (all_panels ls) -> Forall (fun P => pn_real P = true) (all_panels ls').
Proof.
  induction ls as [|[L|D] ls IH]; intros sh ls' E F; cbn [give_layers] in E; [injection E as <-; exact F| |].
  - destruct (give_layers _ _ ls) eqn:E1; [|discriminate]. injection E as <-. exact (IH _ _ E1 F).
  - unfold all_panels in F. cbn in F. apply Forall_app in F as [F1 F2]. destruct (det_assign_budget _ _ D) as [D'|] eqn:ED; [|discriminate]. cbn [bind] in E.
    destruct (give_layers _ _ ls) eqn:E1; [|discriminate]. injection E as <-. unfold all_panels. cbn. apply Forall_app. split; [|exact (IH _ _ E1 F2)].
    unfold det_assign_budget in ED. destruct (give_budgets _ _ _) eqn:EG; [|discriminate]. injection ED as <-. cbn. eapply give_real; eauto.
Qed.
Lemma forward_k o V b : Forall (fun P => pn_real P = true) (all_panels (v_layers V)) ->
  volume_forward argsort false o (big_volume k V) (bb b) = orup (fun vb => (big_volume k (fst vb), bb (snd vb))) (volume_forward argsort false o V b).
Proof.
  intro Hr. unfold volume_forward. rewrite budget_k. destruct (assign_budget argsort V) as [V'|e] eqn:EV; [|reflexivity]. cbn [rmap big_volume v_layers].
  rewrite cross_k. { destruct (cross_layers argsort false o (v_layers V') 0 b) as [[b'|e]|]; reflexivity. }
  unfold assign_budget in EV. destruct (v_budget V); [|injection EV as <-; exact Hr]. destruct (give_layers _ _ _) eqn:EG; [|discriminate]. injection EV as <-. cbn. eapply layers_real; eauto.
Qed.
End S.
End K.
