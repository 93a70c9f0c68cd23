(* Model of tomopt/volume/heatmap.py: DetectorHeatMap and GMM (plotting excluded), and of the heat-map branch of
   PanelDetectorLayer.conform_detector (layer.py:548-571).  The learnable parameters are real numbers, densities are not
   rounded.  self.training is the argument tr. *)
From Verif Require Export Model.Panel.
Open Scope R_scope.
Open Scope string_scope.
Open Scope list_scope.

(* heatmap.py:35-57 and 218-243  attributes of a heat map *)
Record heat := Heat {
  ht_res : R; ht_eff : R; ht_m2 : R;       (* resolution, efficiency, m2_cost *)
  ht_fix : R * R;                          (* xy_fix *)
  ht_span : R * R;                         (* xy_span_fix *)
  ht_comps : list ((R * R) * (R * R));     (* rows of mu and sig *)
  ht_norm : R;
  ht_z : R;
  ht_real : bool }.                        (* realistic_validation *)
(* heatmap.py:47, 54 *)
Definition ht_delta (H : heat) : R := snd (ht_span H) - fst (ht_span H).
Definition range_mult : R := 6 / 5.

(* heatmap.py:210-243  GMM.__init__: draws u for mu and v for sig, all in [0, 1).  torch.distributions.Normal raises for
   a scale that is not positive *)
Definition new_comp (delta : R) (xy : R * R) (d : (R * R) * (R * R)) : (R * R) * (R * R) :=
  let '((u1, u2), (v1, v2)) := d in
  ((delta * (1 / 2 - u1) + fst xy, delta * (1 / 2 - u2) + snd xy), (delta * Rmax v1 (1 / 5), delta * Rmax v2 (1 / 5))).
Definition good_scale (c : (R * R) * (R * R)) : bool := Rltb 0 (fst (snd c)) && Rltb 0 (snd (snd c)).
(* heatmap.py:17-57, 108-110  DetectorHeatMap.__init__, assign_budget *)
Definition new_heat (res eff : R) (xyz : R * R * R) (span : R * R) (m2 : R) (budget : bool) (real : bool)
  (draws : list ((R * R) * (R * R))) : Res.res heat :=
  if Rleb res 0 then Err ValueError
  else if Rleb eff 0 then Err ValueError
  else
    let span := if Rltb (snd span) (fst span) then (snd span, fst span) else span in
    let comps := map (new_comp (snd span - fst span) (fst xyz)) draws in
    if negb (forallb good_scale comps) then Err ValueError
    else if budget then Err NotImplementedError
    else Ok (Heat res eff m2 (fst xyz) span comps 1 (snd xyz) real).

(* torch.distributions.Normal(loc, scale).log_prob(v) without the check of the arguments: NaN if scale is not positive *)
Definition normal_log (loc scale : R) (v : xr) : xr :=
  if Rleb scale 0 then NaN
  else match v with
       | Fin x => Fin (- ((x - loc) * (x - loc)) / (2 * (scale * scale)) - ln scale - ln (sqrt (2 * PI)))
       | NaN => NaN
       | PInf | NInf => NInf
       end.
(* MixtureSameFamily.log_prob with equal weights: log of the sum of exp(log_prob + log(1/n)) *)
Definition mix_log (cs : list ((R * R) * (R * R))) (x y : xr) : xr :=
  xlog (fold_right xadd (Fin 0)
    (map (fun c : (R * R) * (R * R) =>
            xexp (xadd (xadd (normal_log (fst (fst c)) (fst (snd c)) x) (normal_log (snd (fst c)) (snd (snd c)) y))
                       (Fin (ln (/ INR (List.length cs)))))) cs)).
(* torch.max of a vector *)
Definition xmax2 (a b : xr) : xr :=
  match a, b with
  | NaN, _ => NaN | _, NaN => NaN
  | _, _ => if xle a b then b else a
  end.
Definition xmaximum (l : list xr) : res xr :=
  match l with [] => Err RuntimeError | a :: l => Ok (fold_left xmax2 l a) end.

(* heatmap.py:245-250  GMM.forward at one point: the same value for x and y *)
Definition gmm1 (H : heat) (x y : xr) : Res.res xr :=
  if xisnan x || xisnan y then Err ValueError
  else
    top <- xmaximum (map (fun c : (R * R) * (R * R) => mix_log (ht_comps H) (Fin (fst (fst c))) (Fin (snd (fst c)))) (ht_comps H)) ;;
    Ok (xsqrt (xmul (Fin (ht_norm H)) (xexp (xsub (mix_log (ht_comps H) x y) top)))).

(* heatmap.py:73-85  get_resolution at one point, given whether the mask selects it *)
Definition heat_resolution1 (H : heat) (tr inside : bool) (x y : xr) : Res.res xr :=
  if tr || negb (ht_real H) then r <- gmm1 H x y ;; Ok (xmul (Fin (ht_res H)) r)
  else if inside then Ok (Fin (ht_res H)) else Ok (Fin 0).
(* heatmap.py:87-103  get_efficiency *)
Definition heat_efficiency1 (H : heat) (tr inside : bool) (x y : xr) : Res.res xr :=
  if tr || negb (ht_real H) then
    r <- gmm1 H x y ;;
    let s := xclamp_max 1 r in
    Ok (xmul (Fin (ht_eff H)) (xmul s s))
  else if inside then Ok (Fin (ht_eff H)) else Ok (Fin 0).
(* heatmap.py:105-106  get_cost *)
Definition heat_cost (H : heat) : R :=
  ht_m2 H * (Rsum (map (fun c : (R * R) * (R * R) => fst (snd c) * snd (snd c)) (ht_comps H)) / INR (List.length (ht_comps H))).

(* heatmap.py:112-142  get_hits for one muon at (x, y) with its two draws; rows reco_xyz, gen_xyz, unc_xyz, eff *)
Definition heat_hit1 (H : heat) (tr : bool) (g : R * R) (x y : xr) : Res.res (hrow * hrow * hrow * hrow) :=
  let fx := fst (ht_fix H) in let fy := snd (ht_fix H) in let d := ht_delta H in
  let inside := in_xy (Some (Fin (fx - range_mult * d), Fin (fy - range_mult * d)))
                      (Some (Fin (fx + range_mult * d), Fin (fy + range_mult * d))) (Mu x y NaN NaN NaN NaN) in
  let x0 := fx - d / 2 in let y0 := fy - d / 2 in
  r <- heat_resolution1 H tr inside x y ;;
  let rel_x := xadd (xsub x (Fin x0)) (xdiv (Fin (fst g)) r) in
  let rel_y := xadd (xsub y (Fin y0)) (xdiv (Fin (snd g)) r) in
  let clamped := negb tr && ht_real H && inside in
  let rel_x := if clamped then xclamp 0 (fst (ht_span H)) rel_x else rel_x in
  let rel_y := if clamped then xclamp 0 (snd (ht_span H)) rel_y else rel_y in
  e <- heat_efficiency1 H tr inside x y ;;
  Ok ([xadd (Fin x0) rel_x; xadd (Fin y0) rel_y; Fin (ht_z H)],
      [x; y; Fin (ht_z H)],
      [xdiv (Fin 1) r; xdiv (Fin 1) r; Fin 0],
      [e]).
Definition heat_hits (H : heat) (tr : bool) (rng : nat -> R * R) (ms : list muon) : Res.res (list (string * list hrow)) :=
  rows <- mapM (fun iu : nat * muon => heat_hit1 H tr (rng (fst iu)) (mx (snd iu)) (my (snd iu)))
               (combine (seq 0 (List.length ms)) ms) ;;
  Ok [("reco_xyz", map (fun q : hrow * hrow * hrow * hrow => fst (fst (fst q))) rows);
      ("gen_xyz", map (fun q => snd (fst (fst q))) rows);
      ("unc_xyz", map (fun q => snd (fst q)) rows);
      ("eff", map snd rows)].

(* heatmap.py:186-192  clamp_params; bounds for the means, the widths and the height; eps: the draw *)
Definition heat_clamp (low high : R * R * R) (eps : R) (H : heat) : heat :=
  let '(ml, sl, zl) := low in
  let '(mh, sh, zh) := high in
  Heat (ht_res H) (ht_eff H) (ht_m2 H) (ht_fix H) (ht_span H)
    (map (fun c : (R * R) * (R * R) =>
            ((Rclamp ml mh (fst (fst c)), Rclamp ml mh (snd (fst c))),
             (Rclamp (sl / range_mult) (range_mult * sh) (fst (snd c)), Rclamp (sl / range_mult) (range_mult * sh) (snd (snd c))))) (ht_comps H))
    (Rclamp (1 / 100) (3 / 2) (ht_norm H)) (Rclamp (zl + eps) (zh - eps) (ht_z H)) (ht_real H).
(* layer.py:556-566  the heat maps of a layer of size (lx, ly) with its top at z *)
Definition heat_conform (lx ly z size eps : R) (H : heat) : heat :=
  let lo := Rmax 0 (fst (ht_fix H) - range_mult * ht_delta H) in
  let hi := Rmin lx (snd (ht_fix H) + range_mult * ht_delta H) in
  heat_clamp (lo, 0, z - size) (hi, ly, z) eps H.
