(* Model of tomopt/volume/panel.py: DetectorPanel and SigmoidDetectorPanel.
   The learnable parameters are real numbers.  self.training is the argument tr.
   One hit tensor row is a list of numbers. *)
From Verif Require Export Model.MuonBatch.
Open Scope R_scope.
Open Scope string_scope.
Open Scope list_scope.

(* which response is used in the differentiable mode *)
Inductive response := Gauss | Sig (smooth : R).

(* panel.py:62-95 and 336-360  attributes of a panel *)
Record panel := Panel {
  pn_resp : response;
  pn_res : R; pn_eff : R;                  (* resolution, efficiency *)
  pn_x : R; pn_y : R; pn_z : R;            (* xy, z *)
  pn_sx : R; pn_sy : R;                    (* xy_span *)
  pn_m2 : R;                               (* m2_cost *)
  pn_scale : R;                            (* budget_scale *)
  pn_real : bool }.                        (* realistic_validation *)

Definition with_scale (P : panel) (s : R) : panel :=
  Panel (pn_resp P) (pn_res P) (pn_eff P) (pn_x P) (pn_y P) (pn_z P) (pn_sx P) (pn_sy P) (pn_m2 P) s (pn_real P).
Definition with_place (P : panel) (x y z sx sy : R) : panel :=
  Panel (pn_resp P) (pn_res P) (pn_eff P) x y z sx sy (pn_m2 P) (pn_scale P) (pn_real P).

(* panel.py:100-108  get_scaled_xy_span *)
Definition span_x (P : panel) : R := pn_sx P * pn_scale P.
Definition span_y (P : panel) : R := pn_sy P * pn_scale P.

(* panel.py:197-207  assign_budget (budget not None).  torch.sqrt of a negative number is NaN: here the panel is only
   given budgets through this function, and theorems assume a positive quotient where it matters. *)
Definition panel_assign_budget (budget : R) (P : panel) : panel :=
  with_scale P (sqrt (budget / (pn_m2 P * (pn_sx P * pn_sy P)))).

(* panel.py:62-95  DetectorPanel.__init__; panel.py:336-360, 440-449 SigmoidDetectorPanel.__init__ with the smooth setter *)
Definition new_panel (resp : response) (res eff x y z sx sy m2 : R) (budget : option R) (real : bool) : Res.res panel :=
  if Rleb res 0 then Err ValueError
  else if Rleb eff 0 then Err ValueError
  else
    let P := Panel resp res eff x y z sx sy m2 1 real in
    let P := match budget with Some b => panel_assign_budget b P | None => P end in
    match resp with
    | Sig smooth => if Rltb 0 smooth then Ok P else Err ValueError
    | Gauss => Ok P
    end.

(* panel.py:110-124  get_xy_mask, one point *)
Definition panel_mask1 (P : panel) (x y : xr) : bool :=
  xle (Fin (pn_x P - span_x P / 2)) x && xlt x (Fin (pn_x P + span_x P / 2))
  && xle (Fin (pn_y P - span_y P / 2)) y && xlt y (Fin (pn_y P + span_y P / 2)).

(* exp of torch.distributions.Normal(loc, scale).log_prob(v), one axis.
   Normal raises ValueError when scale is not positive and when v is NaN (validate_args). *)
Definition normal_prob (loc scale : R) (v : xr) : Res.res xr :=
  if Rleb scale 0 then Err ValueError
  else match v with
       | NaN => Err ValueError
       | Fin x => Ok (Fin (exp (- (x - loc) * (x - loc) / (2 * (scale * scale)) - ln scale - ln (sqrt (2 * PI)))))
       | PInf | NInf => Ok (Fin 0)
       end.

(* panel.py:362-376  sig_model, one axis *)
Definition sig_model1 (smooth loc span : R) (v : xr) : xr :=
  let half_width := span / 2 in
  let delta := xdiv (xsub v (Fin loc)) (Fin half_width) in
  let coef := xsigmoid (xdiv (xsub (Fin 1) (xmul (xsign delta) delta)) (Fin smooth)) in
  xdiv coef (xsigmoid (xdiv (Fin 1) (Fin smooth))).

(* fraction of the nominal response at one coordinate, one axis (panel.py:158, 188; 398, 427) *)
Definition fraction1 (resp : response) (loc span : R) (v : xr) : Res.res xr :=
  match resp with
  | Gauss =>
      a <- normal_prob loc (span / 4) v ;;
      b <- normal_prob loc (span / 4) (Fin loc) ;;
      Ok (xdiv a b)
  | Sig smooth => Ok (sig_model1 smooth loc span v)
  end.

(* panel.py:137-165 and 378-405  get_resolution at one point, given whether the mask selects it.
   In the Gaussian model: resolution * exp(log_prob(xy)) / exp(log_prob(centre)), evaluated left to right. *)
Definition resolution1 (resp : response) (nominal loc span : R) (v : xr) : Res.res xr :=
  match resp with
  | Gauss =>
      a <- normal_prob loc (span / 4) v ;;
      b <- normal_prob loc (span / 4) (Fin loc) ;;
      Ok (xclamp_min (1 / 10000000000) (xdiv (xmul (Fin nominal) a) b))
  | Sig smooth => Ok (xclamp_min (1 / 10000000000) (xmul (Fin nominal) (sig_model1 smooth loc span v)))
  end.
Definition get_resolution1 (P : panel) (tr inside : bool) (x y : xr) : Res.res (xr * xr) :=
  if tr || negb (pn_real P) then
    rx <- resolution1 (pn_resp P) (pn_res P) (pn_x P) (span_x P) x ;;
    ry <- resolution1 (pn_resp P) (pn_res P) (pn_y P) (span_y P) y ;;
    Ok (rx, ry)
  else if inside then Ok (Fin (pn_res P), Fin (pn_res P)) else Ok (Fin 0, Fin 0).

(* panel.py:167-195 and 407-434  get_efficiency at one point; only the sigmoid model is clamped from below *)
Definition get_efficiency1 (P : panel) (tr inside : bool) (x y : xr) : Res.res xr :=
  if tr || negb (pn_real P) then
    fx <- fraction1 (pn_resp P) (pn_x P) (span_x P) x ;;
    fy <- fraction1 (pn_resp P) (pn_y P) (span_y P) y ;;
    let e := xmul (Fin (pn_eff P)) (xmul fx fy) in
    Ok (match pn_resp P with Gauss => e | Sig _ => xclamp_min (1 / 10000000000) e end)
  else if inside then Ok (Fin (pn_eff P)) else Ok (Fin 0).

(* one row of a hit tensor *)
Notation hrow := (list xr).

(* panel.py:209-246  get_hits for one muon at (x, y) with its two standard-normal draws; the four rows
   reco_xyz, gen_xyz, unc_xyz, eff *)
Definition hit1 (P : panel) (tr : bool) (g : R * R) (x y : xr) : Res.res (hrow * hrow * hrow * hrow) :=
  let x0 := pn_x P - span_x P / 2 in
  let y0 := pn_y P - span_y P / 2 in
  let inside := in_xy (Some (Fin x0, Fin y0)) (Some (Fin (pn_x P + span_x P / 2), Fin (pn_y P + span_y P / 2)))
                      (Mu x y NaN NaN NaN NaN) in
  r <- get_resolution1 P tr inside x y ;;
  let rel_x := xadd (xsub x (Fin x0)) (xdiv (Fin (fst g)) (fst r)) in
  let rel_y := xadd (xsub y (Fin y0)) (xdiv (Fin (snd g)) (snd r)) in
  let clamped := negb tr && pn_real P && inside in
  let rel_x := if clamped then xclamp 0 (span_x P) rel_x else rel_x in
  let rel_y := if clamped then xclamp 0 (span_y P) rel_y else rel_y in
  e <- get_efficiency1 P tr inside x y ;;
  Ok ([xadd (Fin x0) rel_x; xadd (Fin y0) rel_y; Fin (pn_z P)],
      [x; y; Fin (pn_z P)],
      [xdiv (Fin 1) (fst r); xdiv (Fin 1) (snd r); Fin 0],
      [e]).

(* panel.py:209-246  get_hits: the dictionary of tensors, one row per muon; rng i: the draws of muon i *)
Definition panel_hits (P : panel) (tr : bool) (rng : nat -> R * R) (ms : list muon)
  : Res.res (list (string * list hrow)) :=
  rows <- mapM (fun iu : nat * muon => hit1 P tr (rng (fst iu)) (mx (snd iu)) (my (snd iu)))
               (combine (seq 0 (List.length ms)) ms) ;;
  Ok [("reco_xyz", map (fun q : hrow * hrow * hrow * hrow => fst (fst (fst q))) rows);
      ("gen_xyz", map (fun q => snd (fst (fst q))) rows);
      ("unc_xyz", map (fun q => snd (fst q)) rows);
      ("eff", map snd rows)].

(* panel.py:248-254  get_cost *)
Definition panel_cost (P : panel) : R := pn_m2 P * (span_x P * span_y P).

(* panel.py:256-273  clamp_params; eps: the draw np.random.uniform(0, 1e-3) *)
Definition clamp_params (low high : R * R * R) (eps : R) (P : panel) : panel :=
  let '(lx, ly, lz) := low in
  let '(hx, hy, hz) := high in
  with_place P (Rclamp lx hx (pn_x P)) (Rclamp ly hy (pn_y P)) (Rclamp (lz + eps) (hz - eps) (pn_z P))
             (Rclamp (hx / 20) (10 * hx) (pn_sx P)) (Rclamp (hy / 20) (10 * hy) (pn_sy P)).
