(* The ladle furnace benchmark: C65, C82-C85. *)
Require Import Reals Lra Lia ZArith.
From Verif Require Import Model.X0Infer Proofs.BlockP Model.Ladle Spec.LadleSpec Spec.PassiveSpec Proofs.PassiveP Proofs.LadleP.
Open Scope R_scope.
Open Scope list_scope.

(* C65. From a class to a height and back. *)
Theorem C65_round_trip : forall z0 size c, 0 < size -> targ2int z0 size (class2float z0 size c) = c.
Proof.
  intros z0 size c Hs. unfold targ2int, class2float. replace (((IZR c + 1) * size + z0 - z0) / size) with (IZR (c + 1)) by (rewrite plus_IZR; field; lra).
  rewrite (Rfloor_unique (IZR (c + 1)) (c + 1)) by lra. lia.
Qed.
Print Assumptions C65_round_trip.
(* C65. The class of a height is the layer that contains it, counted from the first layer above the bottom of the ladle. *)
Theorem C65_layer : forall z0 size h, 0 < size ->
  let c := targ2int z0 size h in
  class2float z0 size c <= h < class2float z0 size c + size /\
  z0 + size + IZR c * size <= h < z0 + size + (IZR c + 1) * size /\
  (forall n : Z, z0 + 2 * size <= h < z0 + IZR n * size -> (1 <= c <= n - 2)%Z).
Proof.
  intros z0 size h Hs c. unfold class2float. unfold c, targ2int. set (q := (h - z0) / size). assert (E : h = z0 + q * size) by (unfold q; field; lra). rewrite minus_IZR.
  destruct (Rfloor_bounds q) as [F1 F2]. assert (G1 : IZR (Rfloor q) * size <= q * size) by (apply Rmult_le_compat_r; lra). assert (G2 : q * size < (IZR (Rfloor q) + 1) * size) by (apply Rmult_lt_compat_r; lra).
  split; [lra|]. split; [lra|]. intros n [H1 H2]. assert (A1 : 2 <= q) by nra. assert (A2 : q < IZR n) by nra.
  assert (2 <= Rfloor q)%Z by (apply IZR_lt_half; lra). assert (Rfloor q < n)%Z by (apply lt_IZR; lra). lia.
Qed.
Print Assumptions C65_layer.
(* C65. The generated layout, n layers from the bottom: furnace on the border and in the lowest layer, then fill, slag and air. The target is in
   the layer above the last filled one. *)
Theorem C65_layout :
  forall w m r1 r2 (n : nat), 0 < w_size w -> 0 <= r1 < 1 -> 0 <= r2 < 1 -> (3 <= n)%nat -> snd (w_z w) = fst (w_z w) + INR n * w_size w ->
  let nx := Rfloor (fst (w_lw w) / w_size w) in let ny := Rfloor (snd (w_lw w) / w_size w) in (0 < nx)%Z -> (0 < ny)%Z ->
  exists mat slag c a b,
    ladle_levels w None None r1 r2 = (mat, slag) /\ ladle_cube w m mat slag n = Ok c /\ length c = n /\
    (2 <= a <= b)%Z /\ (b < Z.of_nat n)%Z /\ targ2int (fst (w_z w)) (w_size w) mat = (a - 1)%Z /\
    (fst (w_z w) + IZR a * w_size w <= mat < fst (w_z w) + (IZR a + 1) * w_size w) /\
    forall k i j, (1 <= k <= Z.of_nat n)%Z -> (0 <= i < nx)%Z -> (0 <= j < ny)%Z ->
      (on_border nx ny i j -> voxel3 c k i j = Some (lx_furnace m)) /\
      (~ on_border nx ny i j -> voxel3 c k i j = Some (stack m a b k)).
Proof.
  intros w m r1 r2 n Hs H1 H2 Hn Hz nx ny Hx Hy. set (mat := fst (w_z w) + 2 * w_size w + (INR n - 2) * w_size w * r1).
  set (slag := mat + (snd (w_z w) - mat) * r2). set (z0 := fst (w_z w)) in *.
  set (a := Rfloor ((mat - z0) / w_size w)). set (b := Rfloor ((slag - z0) / w_size w)).
  assert (Lx : long (fst (w_lw w) / w_size w) = nx). { assert (IZR 1 <= IZR nx) by (apply IZR_le; lia). pose proof (Rfloor_bounds (fst (w_lw w) / w_size w)) as FX. fold nx in FX. apply long_pos. lra. }
  assert (Ly : long (snd (w_lw w) / w_size w) = ny). { assert (IZR 1 <= IZR ny) by (apply IZR_le; lia). pose proof (Rfloor_bounds (snd (w_lw w) / w_size w)) as FY. fold ny in FY. apply long_pos. lra. }
  assert (HN : 3 <= INR n) by (apply le_INR in Hn; cbn in Hn; lra).
  assert (M0 : 0 <= (INR n - 2) * w_size w * r1 < (INR n - 2) * w_size w). { assert (0 < (INR n - 2) * w_size w) by (apply Rmult_lt_0_compat; lra). split; [apply Rmult_le_pos; lra|]. nra. }
  assert (M1 : z0 + 2 * w_size w <= mat < snd (w_z w)) by (unfold mat; rewrite Hz; fold z0; lra).
  assert (M2 : mat <= slag < snd (w_z w)) by (unfold slag; split; nra).
  exists mat, slag, (map (fun k => ladle_map w m mat slag (z0 + INR k * w_size w)) (seq 1 n)), a, b. split.
  { unfold ladle_levels, fill_range. cbn [fst snd]. rewrite Hz. fold z0. replace (w_size w + (z0 + w_size w) + (z0 + INR n * w_size w - (z0 + w_size w + w_size w)) * r1) with mat by (unfold mat; fold z0; ring).
    unfold slag. rewrite Hz. reflexivity. }
  split. { unfold ladle_cube. apply mapM_ok. intros k _. apply ladle_layer_eq; rewrite ?Lx, ?Ly; assumption. }
  split; [now rewrite map_length, seq_length|].
  assert (A2 : (2 <= a)%Z) by (apply floor_le; [exact Hs|lra]).
  assert (FA := Rfloor_bounds ((mat - z0) / w_size w)). fold a in FA. assert (FB := Rfloor_bounds ((slag - z0) / w_size w)). fold b in FB.
  assert (EA : mat = z0 + (mat - z0) / w_size w * w_size w) by (field; lra).
  assert (AB : (a <= b)%Z). { apply floor_le; [exact Hs|]. assert (IZR a * w_size w <= (mat - z0) / w_size w * w_size w) by (apply Rmult_le_compat_r; lra). lra. }
  assert (BN : (b < Z.of_nat n)%Z). { destruct (Z.lt_ge_cases b (Z.of_nat n)) as [L|L]; [exact L|]. apply (proj1 (floor_le _ _ _ _ Hs)) in L. rewrite <- INR_IZR_INZ in L. rewrite Hz in M2. fold z0 in M2. lra. }
  split; [lia|]. split; [exact BN|]. split; [reflexivity|]. split.
  { assert (IZR a * w_size w <= (mat - z0) / w_size w * w_size w) by (apply Rmult_le_compat_r; lra). assert ((mat - z0) / w_size w * w_size w < (IZR a + 1) * w_size w) by (apply Rmult_lt_compat_r; lra). lra. }
  intros k i j Hk Hi Hj.
  assert (E : voxel3 (map (fun k => ladle_map w m mat slag (z0 + INR k * w_size w)) (seq 1 n)) k i j =
              Some (if (i =? 0)%Z || (i =? nx - 1)%Z || (j =? 0)%Z || (j =? ny - 1)%Z then lx_furnace m else stack m a b k)).
  { unfold voxel3. rewrite nth_error_map. rewrite nth_error_nth' with (d := 0%nat) by (rewrite seq_length; lia). rewrite seq_nth by lia. cbn [option_map].
    change (voxel (ladle_map w m mat slag (z0 + INR (1 + Z.to_nat (k - 1)) * w_size w)) i j = Some (if (i =? 0)%Z || (i =? nx - 1)%Z || (j =? 0)%Z || (j =? ny - 1)%Z then lx_furnace m else stack m a b k)).
    unfold ladle_map. rewrite Lx, Ly. rewrite voxel_grid by assumption. rewrite INR_IZR_INZ. replace (Z.of_nat (1 + Z.to_nat (k - 1))) with k by lia. unfold z0. rewrite base_stack by (exact Hs || lia). reflexivity. }
  rewrite E. unfold on_border. split; intros HB.
  - destruct (Z.eqb_spec i 0), (Z.eqb_spec i (nx - 1)), (Z.eqb_spec j 0), (Z.eqb_spec j (ny - 1)); try reflexivity; exfalso; lia.
  - destruct (Z.eqb_spec i 0), (Z.eqb_spec i (nx - 1)), (Z.eqb_spec j 0), (Z.eqb_spec j (ny - 1)); try reflexivity; exfalso; lia.
Qed.
Print Assumptions C65_layout.
Example C65_case : let w := World (5, 4) (1, 9) 1 in 0 < w_size w /\ snd (w_z w) = fst (w_z w) + INR 8 * w_size w /\ (0 < Rfloor (fst (w_lw w) / w_size w))%Z /\ (0 < Rfloor (snd (w_lw w) / w_size w))%Z.
Proof. cbn [w_lw w_z w_size fst snd INR]. split; [lra|]. split; [lra|]. rewrite (Rfloor_unique (5 / 1) 5) by lra. rewrite (Rfloor_unique (4 / 1) 4) by lra. lia. Qed.

(* C82. From positive X0s the pipeline makes probabilities: one per layer above the bottom of the ladle, positive, with sum 1. *)
Theorem C82_distribution :
  forall nz nx ny x, (2 <= nz)%nat -> (3 <= nx)%nat -> (3 <= ny)%nat -> cube_shape nz nx ny x -> cube_pos x ->
  length (x02probs x) = (nz - 1)%nat /\ distribution (x02probs x).
Proof.
  intros nz nx ny x Hz Hx Hy S P. destruct (scores_fin nz nx ny x Hz Hx Hy S P) as (s & E & Ps & L). unfold x02probs. rewrite E. split; [unfold softmax; now rewrite !map_length|]. apply soft_dist. intros ->. cbn in L. lia.
Qed.
Print Assumptions C82_distribution.
(* C82 is false: from the exact X0s of a generated layout (five layers of hot steel below air), the most probable class is 2, three layers
   below the class of the target. *)
Theorem C82_edge_refuted :
  let w := World (3, 3) (0, 8) 1 in let m := LadleX0 0.01782 0.01991 0.08211 303.9 in
  exists r1 r2 mat slag c, 0 <= r1 < 1 /\ 0 <= r2 < 1 /\ ladle_levels w None None r1 r2 = (mat, slag) /\ ladle_cube w m mat slag 8 = Ok c /\
    targ2int (fst (w_z w)) (w_size w) mat = 5%Z /\ length (x02probs c) = 7%nat /\
    forall k, (k < 7)%nat -> k <> 2%nat -> xlt (nth k (x02probs c) NaN) (nth 2 (x02probs c) NaN) = true.
Proof.
  cbn zeta. set (w := World (3, 3) (0, 8) 1). set (m := LadleX0 0.01782 0.01991 0.08211 303.9).
  set (plate := fun v => [[lx_furnace m; lx_furnace m; lx_furnace m]; [lx_furnace m; v; lx_furnace m]; [lx_furnace m; lx_furnace m; lx_furnace m]]).
  exists (2 / 3), 0, 6, 6, (map plate [lx_furnace m; lx_fill m; lx_fill m; lx_fill m; lx_fill m; lx_fill m; lx_air m; lx_air m]).
  split; [lra|]. split; [lra|]. split; [unfold ladle_levels, fill_range, w; cbn [w_z w_size fst snd]; f_equal; lra|]. split; [|split; [|split]].
  - assert (L3 : long (3 / 1) = 3%Z) by (rewrite long_pos by lra; apply Rfloor_unique; lra).
    unfold ladle_cube. rewrite (mapM_ok _ (fun k => ladle_map w m 6 6 (fst (w_z w) + INR k * w_size w))) by (intros k _; apply ladle_layer_eq; cbn [w w_lw w_size fst snd]; rewrite L3; lia).
    assert (EM : forall k, ladle_map w m 6 6 (fst (w_z w) + INR k * w_size w) = plate (ladle_base w m 6 6 (INR k))).
    { intros k. unfold ladle_map. cbn [w w_lw w_size w_z fst snd]. rewrite L3. replace (0 + INR k * 1) with (INR k) by ring. reflexivity. }
    rewrite (map_ext _ _ EM). cbn [seq map]. unfold ladle_base, fill_range. cbn [w w_lw w_size w_z fst snd INR].
    repeat match goal with |- context [Rleb ?x ?y] => destruct (Rleb_spec x y); try lra end. reflexivity.
  - unfold targ2int. cbn [w w_z w_size fst]. rewrite (Rfloor_unique ((6 - 0) / 1) 6) by lra. reflexivity.
  - reflexivity.
  - assert (ES : scores (map plate [lx_furnace m; lx_fill m; lx_fill m; lx_fill m; lx_fill m; lx_fill m; lx_air m; lx_air m]) =
      max_div_min (map Fin (v7 (lx_fill m) (lx_air m)))).
    { unfold scores. change (remove_ladle _) with (col7 (lx_fill m) (lx_air m)). rewrite avg3_col7, avg_1d_fin, avg1_col7, ridge_fin, sum_col7. reflexivity. }
    unfold x02probs. rewrite ES, ratio_col7 by (cbn [m lx_fill lx_air]; lra). intros k Hk N. apply soft_order; [exact Hk|cbn; lia|]. cbn [m lx_fill lx_air].
    do 7 (destruct k as [|k]; [try congruence; cbn [nth]; apply Rminus_lt; unfold Rdiv; lra|]). lia.
Qed.
Print Assumptions C82_edge_refuted.
(* C83. In a square volume of whole voxels every point lies in exactly one pixel. *)
Theorem C83_square : forall (n : nat) size p, 0 < size -> (1 <= n)%nat -> let l := INR n * size in
  0 <= fst p < l -> 0 <= snd p < l -> pixels_at (l, l) size p = 1%nat.
Proof.
  intros n size p Hs Hn l Hx Hy. rewrite pixels_eq. cbn [fst snd]. assert (E : n_pix (l, l) size = n). { unfold n_pix, l. cbn [fst]. rewrite INR_IZR_INZ, long_mult by (exact Hs || lia). lia. }
  rewrite E. unfold l. rewrite points_eq by exact Hn. rewrite !one_cell by assumption. reflexivity.
Qed.
Print Assumptions C83_square.
(* C83 is false for other volumes: the number of pixels along y is computed from the length along x. Longer along y, points lie in no pixel;
   shorter, in several. *)
Theorem C83_pixels_refuted : pixels_at (2, 4) 1 (1 / 2, 3 / 2) = 0%nat /\ pixels_at (4, 2) 1 (1 / 2, 1 / 2) = 2%nat.
Proof.
  rewrite !pixels_eq. cbn [fst snd]. assert (E1 : n_pix (2, 4) 1 = 2%nat) by (unfold n_pix; cbn [fst]; rewrite long_pos by lra; rewrite (Rfloor_unique (2 / 1) 2) by lra; reflexivity).
  assert (E2 : n_pix (4, 2) 1 = 4%nat) by (unfold n_pix; cbn [fst]; rewrite long_pos by lra; rewrite (Rfloor_unique (4 / 1) 4) by lra; reflexivity).
  rewrite E1, E2. unfold points. cbn [seq map Nat.sub INR filter].
  repeat match goal with |- context [Rleb ?x ?y] => destruct (Rleb_spec x y); try lra | |- context [Rltb ?x ?y] => destruct (Rltb_spec x y); try lra end. split; reflexivity.
Qed.
Print Assumptions C83_pixels_refuted.

(* C84. The height is a weighted mean of the PoCAs' z: it lies in any range that contains them all, and follows a shift of all of them. *)
Theorem C84_height :
  forall cdf lw size smooth gw ms,
  (forall p u x y, 0 < u -> x < y -> cdf p u x < cdf p u y) -> 0 < size -> size <= fst lw -> size <= snd lw ->
  set_smooth lw size smooth = Ok gw -> ms <> [] ->
  Forall (fun m => let '(ux, uy, uz) := sn_unc m in 0 < ux /\ 0 < uy /\ 0 < uz /\ 0 < sn_eff m) ms ->
  exists h, height_pred cdf lw size gw ms = Ok (Fin h) /\
    (forall lo hi, Forall (fun m => lo <= snd (sn_poca m) <= hi) ms -> lo <= h <= hi) /\
    (forall d, height_pred cdf lw size gw (map (raise_muon d) ms) = Ok (Fin (h + d))).
Proof.
  intros cdf lw size smooth gw ms HC Hs Hx Hy E N HF. destruct (grid_weights lw size smooth gw Hs Hx Hy E) as (_ & P & L & N').
  set (sw := fun m => match sig_weight cdf lw size gw m with Ok s => s | Err _ => 0 end).
  assert (H : forall m, In m ms -> sig_weight cdf lw size gw m = Ok (sw m) /\ 0 < sw m /\ 0 < snd (sn_unc m) /\ 0 < sn_eff m).
  { intros m Hm. rewrite Forall_forall in HF. specialize (HF m Hm). destruct (sn_unc m) as [[ux uy] uz] eqn:Eu. destruct HF as (U1 & U2 & U3 & U4).
    destruct (sig_weight_pos cdf lw size gw m HC Hs P L N') as (s & E1 & S1); [rewrite Eu; exact U1|rewrite Eu; exact U2|]. unfold sw. rewrite E1. cbn [snd]. auto. }
  destruct (height_eq cdf lw size gw ms sw N H) as (lo & hi & top & K1 & K2 & K3 & W & EH).
  set (wt := fun m : seen => Rmin (Rmax (sw m * sn_eff m / (Rmin (Rmax (snd (sn_unc m)) lo) hi * Rmin (Rmax (snd (sn_unc m)) lo) hi)) 0) top) in *.
  eexists. split; [exact EH|]. split.
  - intros a b HB. apply wavg_range; [exact N|]. intros m Hm. split; [now apply W|]. rewrite Forall_forall in HB. now apply HB.
  - intros d. assert (RU : forall m, sn_unc (raise_muon d m) = sn_unc m /\ sn_eff (raise_muon d m) = sn_eff m /\ sw (raise_muon d m) = sw m /\ sig_weight cdf lw size gw (raise_muon d m) = sig_weight cdf lw size gw m /\ snd (sn_poca (raise_muon d m)) = snd (sn_poca m) + d).
    { intros [[[x y] z] u e]. unfold raise_muon. cbn [sn_poca sn_unc sn_eff snd]. repeat split; reflexivity. }
    destruct (height_eq cdf lw size gw (map (raise_muon d) ms) sw) as (lo' & hi' & top' & K1' & K2' & K3' & W' & EH').
    { intros Q. apply map_eq_nil in Q. congruence. }
    { intros m Hm. apply in_map_iff in Hm as (m0 & <- & Hm). destruct (RU m0) as (-> & -> & -> & -> & _). now apply H. }
    rewrite map_length, map_map in K1', K2', K3'.
    assert (EU : map (fun x => Fin (snd (sn_unc (raise_muon d x)))) ms = map (fun m => Fin (snd (sn_unc m))) ms) by (apply map_ext; intros m; now rewrite (proj1 (RU m))). rewrite EU in K1', K2'.
    rewrite K1 in K1'. injection K1' as <-. rewrite K2 in K2'. injection K2' as <-.
    assert (EW : forall m, sw (raise_muon d m) * sn_eff (raise_muon d m) / (Rmin (Rmax (snd (sn_unc (raise_muon d m))) lo) hi * Rmin (Rmax (snd (sn_unc (raise_muon d m))) lo) hi) = sw m * sn_eff m / (Rmin (Rmax (snd (sn_unc m)) lo) hi * Rmin (Rmax (snd (sn_unc m)) lo) hi)).
    { intros m. destruct (RU m) as (-> & -> & -> & _ & _). reflexivity. }
    rewrite (map_ext _ (fun m => Fin (sw m * sn_eff m / (Rmin (Rmax (snd (sn_unc m)) lo) hi * Rmin (Rmax (snd (sn_unc m)) lo) hi)))) in K3' by (intros m; f_equal; apply EW).
    rewrite K3 in K3'. injection K3' as <-. fold wt in EH'. rewrite EH', !map_map.
    assert (ET : forall m, wt (raise_muon d m) = wt m) by (intros m; unfold wt; now rewrite EW).
    rewrite (map_ext (fun x => wt (raise_muon d x)) wt) by exact ET. rewrite (map_ext (fun x => wt (raise_muon d x) * snd (sn_poca (raise_muon d x))) (fun m => wt m * snd (sn_poca m) + d * wt m)).
    2: { intros m. rewrite ET. destruct (RU m) as (_ & _ & _ & _ & ->). ring. }
    rewrite Rsum_map_plus, Rsum_map_mult. do 2 f_equal. change (fun m => Rmin (Rmax (sw m * sn_eff m / (Rmin (Rmax (snd (sn_unc m)) lo) hi * Rmin (Rmax (snd (sn_unc m)) lo) hi)) 0) top) with wt. set (S1 := Rsum (map (fun a => wt a * snd (sn_poca a)) ms)). change (Rsum (map (fun m => Rmin (Rmax (sw m * sn_eff m / (Rmin (Rmax (snd (sn_unc m)) lo) hi * Rmin (Rmax (snd (sn_unc m)) lo) hi)) 0) top * snd (sn_poca m)) ms)) with S1. field. apply Rgt_not_eq, Rsum_pos; [intros Q; apply map_eq_nil in Q; congruence|]. intros y Hy'. apply in_map_iff in Hy' as (m & <- & Hm). now apply W.
Qed.
Print Assumptions C84_height.
(* C84. The weights: uncertainties are cut to the range between the values of rank 0.15865 (n - 1) and 0.84135 (n - 1) (rounded, counted
   from 0), and the weights s * eff / unc^2 at the one of rank 0.84135 (n - 1); s, the muon's part inside of the volume, does not depend on
   z, its uncertainty or the efficiency. *)
Theorem C84_cuts :
  forall cdf lw size smooth gw ms,
  (forall p u x y, 0 < u -> x < y -> cdf p u x < cdf p u y) -> 0 < size -> size <= fst lw -> size <= snd lw ->
  set_smooth lw size smooth = Ok gw -> ms <> [] ->
  Forall (fun m => let '(ux, uy, uz) := sn_unc m in 0 < ux /\ 0 < uy /\ 0 < uz /\ 0 < sn_eff m) ms ->
  exists (s : (R * R) -> (R * R) -> R) lo hi top,
    let unc := fun m => snd (sn_unc m) in
    let wgt := fun m => s (fst (sn_poca m)) (fst (sn_unc m)) * sn_eff m / sq (Rmin (Rmax (unc m) lo) hi) in
    let cut := fun m => Rmin (wgt m) top in
    (forall m, In m ms -> 0 < s (fst (sn_poca m)) (fst (sn_unc m))) /\
    kth (1 + round_even (0.15865 * (INR (length ms) - 1))) (map unc ms) lo /\
    kth (1 + round_even (0.84135 * (INR (length ms) - 1))) (map unc ms) hi /\
    kth (1 + round_even (0.84135 * (INR (length ms) - 1))) (map wgt ms) top /\
    height_pred cdf lw size gw ms = Ok (Fin (Rsum (map (fun m => cut m * snd (sn_poca m)) ms) / Rsum (map cut ms))).
Proof.
  intros cdf lw size smooth gw ms HC Hs Hx Hy E N HF. destruct (grid_weights lw size smooth gw Hs Hx Hy E) as (_ & P & L & N').
  set (s := fun (p u : R * R) => match sig_weight cdf lw size gw (Seen (p, 0) (u, 0) 0) with Ok s => s | Err _ => 0 end).
  set (sw := fun m => s (fst (sn_poca m)) (fst (sn_unc m))).
  assert (H : forall m, In m ms -> sig_weight cdf lw size gw m = Ok (sw m) /\ 0 < sw m /\ 0 < snd (sn_unc m) /\ 0 < sn_eff m).
  { intros m Hm. rewrite Forall_forall in HF. specialize (HF m Hm). destruct m as [[[px py] pz] [[ux uy] uz] ef]. cbn [sn_unc sn_eff] in HF. destruct HF as (U1 & U2 & U3 & U4).
    destruct (sig_weight_pos cdf lw size gw (Seen (px, py, pz) (ux, uy, uz) ef) HC Hs P L N') as (v & E1 & S1); [exact U1|exact U2|].
    assert (E2 : sw (Seen (px, py, pz) (ux, uy, uz) ef) = v). { unfold sw, s. cbn [sn_poca sn_unc fst]. change (sig_weight cdf lw size gw (Seen (px, py, 0) (ux, uy, 0) 0)) with (sig_weight cdf lw size gw (Seen (px, py, pz) (ux, uy, uz) ef)). now rewrite E1. }
    rewrite E2, E1. cbn [sn_unc sn_eff snd]. auto. }
  destruct (height_eq cdf lw size gw ms sw N H) as (lo & hi & top & K1 & K2 & K3 & W & EH).
  exists s, lo, hi, top. cbn zeta. split; [intros m Hm; apply (H m Hm)|].
  assert (Q : forall q, (1 + round_even (q * (INR (length ms) - 1)))%Z = quantile_index q (length ms)).
  { intros q. unfold quantile_index. rewrite INR_IZR_INZ, minus_IZR. reflexivity. }
  rewrite !Q. rewrite <- (map_map (fun m => snd (sn_unc m)) Fin) in K1, K2.
  split; [exact (xkth_kth _ _ _ K1)|]. split; [exact (xkth_kth _ _ _ K2)|].
  split; [apply xkth_kth; rewrite map_map; exact K3|]. rewrite EH.
  assert (EC : forall m, In m ms -> Rmin (Rmax (sw m * sn_eff m / (Rmin (Rmax (snd (sn_unc m)) lo) hi * Rmin (Rmax (snd (sn_unc m)) lo) hi)) 0) top = Rmin (s (fst (sn_poca m)) (fst (sn_unc m)) * sn_eff m / sq (Rmin (Rmax (snd (sn_unc m)) lo) hi)) top).
  { intros m Hm. f_equal. apply Rmax_left. destruct (H m Hm) as (_ & A & _ & B). unfold Rdiv. apply Rmult_le_pos; [apply Rmult_le_pos; [exact (Rlt_le _ _ A)|exact (Rlt_le _ _ B)]|].
    unfold sq; set (c := Rmin (Rmax (snd (sn_unc m)) lo) hi). destruct (Req_dec (c * c) 0) as [Z|Z]; [rewrite Z, Rinv_0; lra|]. apply Rlt_le, Rinv_0_lt_compat. destruct (Rle_0_sqr c) as [G|G]; unfold Rsqr in G; [exact G|congruence]. }
  do 2 f_equal. f_equal; [|f_equal]; (apply f_equal; apply map_ext_in; intros m Hm; now rewrite (EC m Hm)) || (apply map_ext_in; intros m Hm; now rewrite (EC m Hm)).
Qed.
Print Assumptions C84_cuts.
(* C84. A muon whose PoCA has no uncertainty in x or in y makes the prediction fail. *)
Theorem C84_no_uncertainty :
  forall cdf lw size gw ms m, In m ms -> fst (fst (sn_unc m)) <= 0 \/ snd (fst (sn_unc m)) <= 0 -> height_pred cdf lw size gw ms = Err ValueError.
Proof.
  intros cdf lw size gw ms m Hm Hu. unfold height_pred, height_with.
  assert (G : mapM (sig_weight cdf lw size gw) ms = Err ValueError).
  { induction ms as [|n ms IH]; [destruct Hm|]. cbn [mapM]. destruct (sig_weight cdf lw size gw n) as [v|e] eqn:En.
    - cbn [bind]. destruct Hm as [<-|Hm]; [|now rewrite IH]. exfalso. unfold sig_weight in En. destruct (sn_unc n) as [[ux uy] uz]. cbn [fst snd] in Hu. destruct (Rltb_spec 0 ux), (Rltb_spec 0 uy); cbn in En; try discriminate. lra.
    - unfold sig_weight in En. destruct (sn_unc n) as [[ux uy] uz]. destruct (Rltb 0 ux && Rltb 0 uy); [discriminate|]. injection En as <-. reflexivity. }
  now rewrite G.
Qed.
Print Assumptions C84_no_uncertainty.
(* C84. The pixel weights lie in (0, 1]; 1 in the middle; the factor of an edge is exp(-1/smooth), not 0. *)
Theorem C84_weights :
  forall smooth lw c, 0 < smooth -> 0 < fst lw -> 0 < snd lw -> 0 <= fst c <= fst lw -> 0 <= snd c <= snd lw ->
  0 < pixel_weight smooth lw c <= 1 /\ pixel_weight smooth lw (fst lw / 2, snd lw / 2) = 1 /\
  pixel_weight smooth lw (0, snd lw / 2) = exp (- (1 / smooth)) /\ pixel_weight smooth lw (fst lw, snd lw / 2) = exp (- (1 / smooth)).
Proof.
  intros s lw c Hs Hx Hy Cx Cy. split; [now apply weight_range|].
  assert (M : forall l, 0 < l -> sig_model s l (l / 2) = 1).
  { intros l Hl. unfold sig_model. cbn zeta. replace ((l / 2 - l / 2) / (l / 2)) with 0 by (field; lra). rewrite Rabs_R0, Rminus_0_r. pose proof (sigmoid_bounds (1 / s)). field. lra. }
  assert (B : forall l x, 0 < l -> x = 0 \/ x = l -> (sig_model s l x - 1 / 2) * 2 = exp (- (1 / s))).
  { intros l x Hl Q. unfold sig_model. cbn zeta. assert (A : Rabs ((x - l / 2) / (l / 2)) = 1).
    { destruct Q as [->| ->]; [replace ((0 - l / 2) / (l / 2)) with (-1) by (field; lra); rewrite Rabs_left; lra|replace ((l - l / 2) / (l / 2)) with 1 by (field; lra); apply Rabs_R1]. }
    rewrite A. replace ((1 - 1) / s) with 0 by (field; lra). unfold Rsigmoid. rewrite Ropp_0, exp_0. set (e := exp (- (1 / s))) in *. assert (0 < e) by apply exp_pos. replace (/ (1 + 1)) with (1 / 2) by lra. unfold Rdiv. rewrite Rinv_inv. lra. }
  unfold pixel_weight. cbn [fst snd]. rewrite !M by assumption. rewrite !B by auto. repeat split; lra.
Qed.
Print Assumptions C84_weights.
Example C84_case : exists gw, set_smooth (2, 3) 1 (1 / 10) = Ok gw /\ (forall p u x y, 0 < u -> x < y -> Rsigmoid ((x - p) / u) < Rsigmoid ((y - p) / u)).
Proof.
  unfold set_smooth. destruct (Rltb_spec 0 (1 / 10)); [|lra]. eexists. split; [reflexivity|]. intros p u x y Hu H. apply sigmoid_incr. unfold Rdiv. apply Rmult_lt_compat_r; [now apply Rinv_0_lt_compat|lra].
Qed.
(* C84 is false when few of the muons have a weight: with one efficient muon out of seven, the weights are clamped to 0 and the result is NaN. *)
Theorem C84_few :
  forall cdf lw size smooth gw poca, (forall p u x y, 0 < u -> x < y -> cdf p u x < cdf p u y) -> 0 < size -> size <= fst lw -> size <= snd lw ->
  set_smooth lw size smooth = Ok gw ->
  height_pred cdf lw size gw (Seen poca (1, 1, 1) 1 :: repeat (Seen poca (1, 1, 1) 0) 6) = Ok NaN.
Proof.
  intros cdf lw size smooth gw poca HC Hs Hx Hy E. destruct (grid_weights lw size smooth gw Hs Hx Hy E) as (_ & P & L & N').
  destruct (sig_weight_pos cdf lw size gw (Seen poca (1, 1, 1) 1) HC Hs P L N') as (s & E1 & S1); [cbn; lra|cbn; lra|].
  assert (E0 : sig_weight cdf lw size gw (Seen poca (1, 1, 1) 0) = Ok s) by exact E1.
  assert (Q1 : quantile_index 0.15865 7 = 2%Z). { unfold quantile_index, round_even. cbn [Z.of_nat Z.sub Z.add Z.opp Pos.of_succ_nat Pos.succ Pos.pred_double Z.pos_sub]. rewrite (Rfloor_unique (0.15865 * 6) 0) by lra. destruct (Rltb_spec (0.15865 * 6 - 0) (1 / 2)); [lra|]. destruct (Rltb_spec (1 / 2) (0.15865 * 6 - 0)); [|lra]. reflexivity. }
  assert (Q2 : quantile_index 0.84135 7 = 6%Z). { unfold quantile_index, round_even. cbn [Z.of_nat Z.sub Z.add Z.opp Pos.of_succ_nat Pos.succ Pos.pred_double Z.pos_sub]. rewrite (Rfloor_unique (0.84135 * 6) 5) by lra. destruct (Rltb_spec (0.84135 * 6 - 5) (1 / 2)); [|lra]. reflexivity. }
  unfold height_pred, height_with. cbn [repeat mapM]. rewrite E1, E0. cbn [bind length map]. rewrite Q1, Q2. cbn [sn_unc sn_eff snd].
  assert (K : forall k, (1 <= k <= 7)%Z -> xkth k [Fin 1; Fin 1; Fin 1; Fin 1; Fin 1; Fin 1; Fin 1] = Ok (Fin 1)).
  { intros k Hk. destruct (xkth_in k [Fin 1; Fin 1; Fin 1; Fin 1; Fin 1; Fin 1; Fin 1]) as (x & -> & I); [exact Hk|]. cbn in I. f_equal. intuition. }
  rewrite !K by lia. cbn [bind]. rewrite xclip_fin, Rmax_left, Rmin_left by lra. cbn [combine map2 fst snd xmul sn_eff]. rewrite !xdiv_fin by lra.
  replace (s * 1 / (1 * 1)) with s by field. replace (s * 0 / (1 * 1)) with 0 by field.
  assert (K2 : xkth 6 [Fin s; Fin 0; Fin 0; Fin 0; Fin 0; Fin 0; Fin 0] = Ok (Fin 0)).
  { unfold xkth. cbn [length Z.of_nat Pos.of_succ_nat Pos.succ]. change ((1 <=? 6)%Z && (6 <=? 7)%Z) with true. cbv iota. unfold xsort. cbn [fold_right xinsert xbefore xisnan xle orb]. assert (B0 : Rleb 0 0 = true) by (apply Rleb_true; lra). assert (B1 : Rleb s 0 = false) by (apply Rleb_false; lra).
    repeat (rewrite ?B0, ?B1; cbn [xinsert xbefore xisnan xle orb]). reflexivity. }
  rewrite K2. cbn [bind map]. rewrite !xclip_fin. rewrite (Rmin_right (Rmax s 0) 0) by apply Rmax_r. rewrite (Rmax_left 0 0), (Rmin_left 0 0) by lra. cbn [map2 sn_poca snd xmul]. f_equal.
  unfold xtotal. cbn [fold_right xadd]. unfold xdiv. rewrite !Rplus_0_r, !Rmult_0_l, !Rplus_0_r. destruct (Req_EM_T 0 0); [|congruence]. unfold inf_of_sign. destruct (Rlt_dec 0 0); [lra|]. reflexivity.
Qed.
Print Assumptions C84_few.
Theorem C84_number_refuted : exists cdf lw size smooth gw ms, set_smooth lw size smooth = Ok gw /\ (forall p u x y, 0 < u -> x < y -> cdf p u x < cdf p u y) /\
  length ms = 7%nat /\ Forall (fun m => 0 <= sn_eff m <= 1) ms /\ Exists (fun m => sn_eff m = 1) ms /\ height_pred cdf lw size gw ms = Ok NaN.
Proof.
  destruct C84_case as (gw & E & HC). exists (fun p u x => Rsigmoid ((x - p) / u)), (2, 3), 1, (1 / 10), gw, (Seen (0, 0, 0) (1, 1, 1) 1 :: repeat (Seen (0, 0, 0) (1, 1, 1) 0) 6).
  split; [exact E|]. split; [exact HC|]. split; [reflexivity|]. split; [cbn; repeat constructor; cbn; lra|]. split; [now left|]. apply (C84_few _ (2, 3) 1 (1 / 10)); auto; cbn; lra.
Qed.
Print Assumptions C84_number_refuted.

(* C85. Two targets, each seen at least twice, with different mean predictions: the loss is finite and not negative, and zero exactly if
   the predictions of every target that was seen twice are equal. *)
Theorem C85_finite :
  forall preds t1 t2, Forall (fun tp => snd tp <> []) preds ->
  (2 <= length (preds_of t1 preds))%nat -> (2 <= length (preds_of t2 preds))%nat ->
  mean (concat (preds_of t1 preds)) <> mean (concat (preds_of t2 preds)) ->
  exists l, spread_range preds = Ok (Fin l) /\ 0 <= l /\
    (l = 0 <-> forall t, (2 <= length (preds_of t preds))%nat -> forall x y, In x (concat (preds_of t preds)) -> In y (concat (preds_of t preds)) -> x = y).
Proof.
  intros preds t1 t2 HF H1 H2 HM.
  assert (HL : forall t, (2 <= length (preds_of t preds))%nat -> (2 <= length (concat (preds_of t preds)))%nat).
  { intros t Ht. assert (F : Forall (fun p => p <> []) (preds_of t preds)). { apply Forall_forall. intros p Hp. apply in_map_iff in Hp as (tp & <- & Hp). apply filter_In in Hp as [Hp _]. rewrite Forall_forall in HF. now apply HF. }
    destruct (preds_of t preds) as [|p [|q ps]]; [cbn in Ht; lia|cbn in Ht; lia|]. inversion F as [|? ? F1 F2]; subst. inversion F2; subst. cbn [concat]. rewrite !app_length. destruct p; [congruence|]. destruct q; [congruence|]. cbn. lia. }
  assert (HB : forall c, In c (big preds) -> (2 <= length c)%nat) by (intros c Hc; apply big_in in Hc as (t & Ht & ->); now apply HL).
  assert (I1 : In (concat (preds_of t1 preds)) (big preds)) by (apply big_in; eauto). assert (I2 : In (concat (preds_of t2 preds)) (big preds)) by (apply big_in; eauto).
  set (b := big preds) in *. assert (N : b <> []) by (intros Q; rewrite Q in I1; destruct I1).
  assert (LB : (2 <= length b)%nat). { destruct b as [|c [|d b']]; [congruence| |cbn; lia]. destruct I1 as [E1|[]], I2 as [E2|[]]. congruence. }
  set (sd := fun c : list R => sqrt (ss c / (INR (length c) - 1))).
  assert (E1 : map vstd b = map Fin (map sd b)) by (rewrite map_map; apply map_ext_in; intros c Hc; apply vstd_fin; now apply HB).
  assert (E2 : map vmean b = map Fin (map mean b)) by (rewrite map_map; apply map_ext_in; intros c Hc; apply vmean_fin; intros ->; specialize (HB [] Hc); cbn in HB; lia).
  assert (V : 0 < ss (map mean b)).
  { destruct (Rle_lt_or_eq_dec _ _ (ss_nonneg (map mean b))) as [L|L]; [exact L|exfalso]. symmetry in L. apply HM. transitivity (mean (map mean b)); [apply ss_zero|symmetry; apply ss_zero]; try exact L; now apply in_map. }
  assert (LM : (2 <= length (map mean b))%nat) by now rewrite map_length.
  set (rg := sqrt (ss (map mean b) / (INR (length (map mean b)) - 1))). assert (R0 : 0 < rg) by (apply sqrt_lt_R0, Rdiv_lt_0_compat; [exact V|now apply len2_INR]).
  assert (SD : forall c, In c b -> 0 <= sd c) by (intros; apply sqrt_pos). assert (M0 : 0 <= mean (map sd b)).
  { unfold mean. apply Rmult_le_pos; [apply Rsum_nonneg; intros y Hy; apply in_map_iff in Hy as (c & <- & Hc); now apply SD|]. left. apply Rinv_0_lt_compat, lt_0_INR. rewrite map_length. lia. }
  exists (mean (map sd b) / rg). split; [|split].
  - unfold spread_range. fold (big preds). fold b. destruct b as [|c b']; [congruence|]. rewrite E1, E2, xvstd_fin by exact LM. rewrite xmean_fin by discriminate. fold rg. now rewrite xdiv_fin by lra.
  - apply Rmult_le_pos; [exact M0|left; now apply Rinv_0_lt_compat].
  - split.
    + intros Z t Ht x y Hx Hy'. assert (Z0 : mean (map sd b) = 0). { apply Rmult_integral in Z as [Z|Z]; [exact Z|]. apply Rinv_0_lt_compat in R0. lra. }
      assert (ZS : Rsum (map sd b) = 0). { unfold mean in Z0. apply Rmult_integral in Z0 as [Z0|Z0]; [exact Z0|]. exfalso. assert (0 < INR (length (map sd b))) by (apply lt_0_INR; rewrite map_length; lia). apply Rinv_0_lt_compat in H. lra. }
      assert (IC : In (concat (preds_of t preds)) b) by (apply big_in; eauto).
      assert (ZC : sd (concat (preds_of t preds)) = 0). { apply (sum_zero (map sd b)); [intros z Hz; apply in_map_iff in Hz as (c & <- & Hc); now apply SD|exact ZS|now apply in_map]. }
      unfold sd in ZC. pose proof (len2_INR _ (HL t Ht)) as LC. apply sqrt_eq_0 in ZC; [|apply Rmult_le_pos; [apply ss_nonneg|left; now apply Rinv_0_lt_compat]].
      assert (ZZ : ss (concat (preds_of t preds)) = 0). { apply Rmult_integral in ZC as [ZC|ZC]; [exact ZC|]. apply Rinv_0_lt_compat in LC. lra. }
      rewrite (ss_zero _ ZZ x Hx), (ss_zero _ ZZ y Hy'). reflexivity.
    + intros A. assert (ZM : mean (map sd b) = 0).
      { unfold mean. rewrite (all_eq_sum _ 0); [unfold Rdiv; ring|]. intros z Hz. apply in_map_iff in Hz as (c & <- & Hc). apply big_in in Hc as (t & Ht & ->). unfold sd. rewrite ss_eq0 by (intros x y; now apply A). unfold Rdiv. rewrite Rmult_0_l. apply sqrt_0. }
      rewrite ZM. unfold Rdiv. ring.
Qed.
Print Assumptions C85_finite.
(* C85 is false otherwise: without a target that was seen twice, the callback raises; with a single target the loss is NaN. *)
Theorem C85_few :
  (forall preds, (forall t, (length (preds_of t preds) < 2)%nat) -> spread_range preds = Err RuntimeError) /\
  (forall t ps, (2 <= length ps)%nat -> Forall (fun p => p <> []) ps -> spread_range (map (fun p => (t, p)) ps) = Ok NaN).
Proof.
  split.
  - intros preds H. unfold spread_range. fold (big preds). destruct (big preds) as [|c b] eqn:E; [reflexivity|exfalso]. assert (I : In c (big preds)) by (rewrite E; now left). apply big_in in I as (t & Ht & _). specialize (H t). lia.
  - intros t ps L F. assert (G : forall q, q <> [] -> grouped (map (fun p => (t, p)) q) = [(t, q)]).
    { induction q as [|p q IH] using rev_ind; intros N; [congruence|]. rewrite map_app. cbn [map]. rewrite grouped_snoc. destruct q as [|r q]; [reflexivity|]. rewrite IH by discriminate. cbn [put_pred]. destruct (Reqb_spec t t); [reflexivity|congruence]. }
    assert (N : ps <> []) by (intros ->; cbn in L; lia). unfold spread_range. rewrite G by exact N. cbn [filter snd]. rewrite (proj2 (Nat.leb_le _ _)) by exact L. cbn [map snd]. f_equal.
    assert (NC : concat ps <> []). { destruct ps as [|p ps]; [congruence|]. inversion F; subst. destruct p; [congruence|discriminate]. }
    rewrite vmean_fin by exact NC. set (m := mean (concat ps)). assert (X : xvstd [Fin m] = NaN).
    { unfold xvstd, xmean, xtotal. cbn [map fold_right length INR]. change (xadd (Fin m) (Fin 0)) with (Fin (m + 0)). rewrite Rplus_0_r, xdiv_fin by lra. replace (m / 1) with m by field. 
      assert (Y : forall x, xsub (Fin x) (Fin x) = Fin 0) by (intros x; unfold xsub; cbn [xopp xadd]; f_equal; ring). rewrite !Y. cbn [xmul xadd]. rewrite Rmult_0_l, Rplus_0_l.
      unfold xdiv. destruct (Req_EM_T 0 0); [|congruence]. unfold inf_of_sign. destruct (Rlt_dec 0 0); [lra|]. reflexivity. }
    rewrite X. now destruct (xmean _).
Qed.
Print Assumptions C85_few.
Theorem C85_finite_refuted : exists alone single, Forall (fun tp => snd tp <> []) (alone ++ single) /\ spread_range alone = Err RuntimeError /\ spread_range single = Ok NaN.
Proof.
  exists [(1, [1]); (2, [2])], (map (fun p => (1, p)) [[1]; [2]]). split; [repeat constructor; discriminate|]. split; [|apply C85_few; [cbn; lia|repeat constructor; discriminate]].
  apply C85_few. intros t. unfold preds_of. cbn [filter fst]. destruct (Reqb_spec t 1), (Reqb_spec t 2); cbn; try lia; lra.
Qed.
Print Assumptions C85_finite_refuted.
Example C85_case : let preds := [(1, [0]); (2, [3]); (1, [1]); (2, [4])] in
  mean (concat (preds_of 1 preds)) = 1 / 2 /\ mean (concat (preds_of 2 preds)) = 7 / 2.
Proof.
  cbn zeta. unfold preds_of. cbn [filter fst map snd]. repeat match goal with |- context [Reqb ?x ?y] => destruct (Reqb_spec x y); try lra end. cbn [map snd concat app]. unfold mean. cbn [Rsum length INR]. lra.
Qed.
