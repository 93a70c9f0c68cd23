(* Model of tomopt/inference/scattering.py: ScatterBatch and GenScatterBatch (plotting excluded).
   Everything is per muon; a (muons, xyz) tensor is a list of vectors.  Uncertainties on inferred variables come from
   autograd and are an argument.  One effect of float32 is modelled: weights u^-2 below half the smallest float32 are 0,
   since that is how hits with infinite uncertainty are ignored. *)
From Verif Require Export Model.Panel.
Open Scope R_scope.
Open Scope string_scope.
Open Scope list_scope.

(* vectors *)
Record v3 := V3 { vx : xr; vy : xr; vz : xr }.
Definition vadd (a b : v3) : v3 := V3 (xadd (vx a) (vx b)) (xadd (vy a) (vy b)) (xadd (vz a) (vz b)).
Definition vsub (a b : v3) : v3 := V3 (xsub (vx a) (vx b)) (xsub (vy a) (vy b)) (xsub (vz a) (vz b)).
Definition vscale (k : xr) (a : v3) : v3 := V3 (xmul k (vx a)) (xmul k (vy a)) (xmul k (vz a)).
Definition vdot (a b : v3) : xr := xadd (xadd (xmul (vx a) (vx b)) (xmul (vy a) (vy b))) (xmul (vz a) (vz b)).
Definition vnorm (a : v3) : xr := xsqrt (vdot a a).
Definition vcross (a b : v3) : v3 :=
  V3 (xsub (xmul (vy a) (vz b)) (xmul (vz a) (vy b)))
     (xsub (xmul (vz a) (vx b)) (xmul (vx a) (vz b)))
     (xsub (xmul (vx a) (vy b)) (xmul (vy a) (vx b))).
Definition vmap (f : xr -> xr) (a : v3) : v3 := V3 (f (vx a)) (f (vy a)) (f (vz a)).

(* largest float32; torch.nan_to_num with default arguments *)
Definition fmax : R := (2 - / 2 ^ 23) * 2 ^ 127.
Definition nan_to_num (a : xr) : xr :=
  match a with Fin r => Fin r | NaN => Fin 0 | PInf => Fin fmax | NInf => Fin (- fmax) end.
(* u ** -2 in float32: 0 when not representable above zero *)
Definition inv_sq (u : xr) : xr :=
  match xdiv (Fin 1) (xmul u u) with
  | Fin w => if Rleb w (/ 2 ^ 150) then Fin 0 else Fin w
  | w => w
  end.
Definition xsum (l : list xr) : xr := fold_right xadd (Fin 0) l.
(* torch.arccos *)
Definition xacos (a : xr) : xr :=
  match a with Fin x => if Rleb (-1) x && Rleb x 1 then Fin (acos x) else NaN | _ => NaN end.

(* scattering.py:140-150  the fit along one axis; one (position, z, uncertainty) per hit.  Returns star and angle *)
Definition fit_axis (pts : list (xr * xr * xr)) : xr * xr :=
  let w (p : xr * xr * xr) := inv_sq (snd p) in
  let total := xsum (map w pts) in
  let mean (f : xr -> xr -> xr) := xdiv (xsum (map (fun p => xmul (f (fst (fst p)) (snd (fst p))) (w p)) pts)) total in
  let mean_x := mean (fun x _ => x) in
  let mean_z := mean (fun _ z => z) in
  let mean_xz := mean xmul in
  let mean_z2 := mean (fun _ z => xmul z z) in
  let star := xdiv (xsub mean_x (xdiv (xmul mean_z mean_xz) mean_z2))
                   (xsub (Fin 1) (xdiv (xsquare mean_z) mean_z2)) in
  (star, xdiv (xsub mean_xz (xmul star mean_z)) mean_z2).

(* a fitted track: direction and start *)
Record track := Track { t_vec : v3; t_start : v3 }.

(* scattering.py:114-162  get_muon_trajectory for one muon *)
Definition trajectory (lw : R * R) (hits uncs : list v3) : res track :=
  if negb (Nat.eqb (List.length hits) (List.length uncs)) then Err RuntimeError
  else
    let centre := Fin ((fst lw + snd lw) / 2 / 2) in
    let hits := map (vmap (fun a => if xisinf a then centre else a)) hits in
    let uncs := map (vmap nan_to_num) uncs in
    let '(star_x, angle_x) := fit_axis (map2 (fun h u => (vx h, vz h, vx u)) hits uncs) in
    let '(star_y, angle_y) := fit_axis (map2 (fun h u => (vy h, vz h, vy u)) hits uncs) in
    let calc z := V3 (xadd star_x (xmul angle_x z)) (xadd star_y (xmul angle_y z)) z in
    match hits with
    | h0 :: h1 :: _ => let start := calc (vz h0) in Ok (Track (vsub (calc (vz h1)) start) start)
    | _ => Err IndexError
    end.

(* scattering.py:289-302  _compute_theta_msc *)
Definition theta_msc1 (p q : v3) : xr := xacos (xdiv (vdot p q) (xmul (vnorm p) (vnorm q))).

(* scattering.py:304-322  _compute_theta *)
Definition theta1 (t : v3) : xr :=
  let arg := xdiv (xopp (vz t)) (vnorm t) in
  if negb (xeq arg (Fin 1)) then xacos arg else Fin 0.

(* scattering.py:324-351  _compute_phi *)
Definition phi1 (x y : xr) : xr :=
  let phi := Fin 0 in
  let phi := if xeq x (Fin 0) && xlt (Fin 0) y then Fin (PI / 2) else phi in
  let phi := if xeq x (Fin 0) && xlt y (Fin 0) then Fin (3 * PI / 2) else phi in
  let phi := if negb (xeq x (Fin 0)) then xatan (xdiv y x) else phi in
  let phi := if xlt x (Fin 0) then xadd phi (Fin PI) else phi in
  if xlt (Fin 0) x && xlt y (Fin 0) then xadd phi (Fin (2 * PI)) else phi.

(* torch.min of two: NaN if either is NaN *)
Definition xmin (a b : xr) : xr :=
  match a, b with
  | NaN, _ => NaN | _, NaN => NaN
  | _, _ => if xle a b then a else b
  end.
(* argmin of two: the first of equal values; NaN counts as smallest *)
Definition argmin_is_first (a b : xr) : bool :=
  match a, b with NaN, _ => true | _, NaN => false | _, _ => xle a b end.

(* scattering.py:353-396  _compute_dtheta_dphi_scatter *)
Definition dtheta_dphi1 (theta_in phi_in theta_out phi_out : xr) : xr * xr :=
  let dtheta0 := xabs (xsub theta_in theta_out) in
  let dtheta1 := xadd theta_in theta_out in
  let dphi := xmin (xmin (xadd (xsub (Fin (2 * PI)) phi_in) phi_out) (xadd (xsub (Fin (2 * PI)) phi_out) phi_in))
                   (xabs (xsub phi_in phi_out)) in
  let dphi1 := xsub (Fin PI) dphi in
  let t0 := xsqrt (xadd (xsquare dtheta0) (xsquare dphi)) in
  let t1 := xsqrt (xadd (xsquare dtheta1) (xsquare dphi1)) in
  if argmin_is_first t0 t1 then (dtheta0, dphi) else (dtheta1, dphi1).

(* the hits of one muon: above and below together (scattering.py:398-410) *)
Record mhits := MH { mh_reco : list v3; mh_gen : list v3; mh_unc : list v3; mh_eff : list xr }.

(* one row of a stored tensor *)
Definition row3 (h : hrow) : res v3 := match h with [x; y; z] => Ok (V3 x y z) | _ => Err RuntimeError end.
Definition row1 (h : hrow) : res xr := match h with [e] => Ok e | _ => Err RuntimeError end.
(* d[pos][var] *)
Fixpoint lookup {V} (k : string) (d : list (string * V)) : option V :=
  match d with [] => None | (k', v) :: d' => if String.eqb k k' then Some v else lookup k d' end.
Definition hits_of (d : list (string * list (string * list (list hrow)))) (pos var : string) : res (list (list hrow)) :=
  match lookup pos d with
  | None => Err KeyError
  | Some vs => match lookup var vs with None => Err KeyError | Some t => Ok t end
  end.
(* torch.cat((above, below), dim=1) *)
Definition cat1 {A} (a b : list (list A)) : res (list (list A)) :=
  if Nat.eqb (List.length a) (List.length b) then Ok (map2 (@app A) a b) else Err RuntimeError.
(* scattering.py:398-410  _extract_hits: n_hits_above (columns of the "above" tensor) and the hits of each muon *)
Definition extract_hits (d : list (string * list (string * list (list hrow)))) : res (nat * list mhits) :=
  ra <- hits_of d "above" "reco_xyz" ;; rb <- hits_of d "below" "reco_xyz" ;;
  ga <- hits_of d "above" "gen_xyz" ;; gb <- hits_of d "below" "gen_xyz" ;;
  ua <- hits_of d "above" "unc_xyz" ;; ub <- hits_of d "below" "unc_xyz" ;;
  ea <- hits_of d "above" "eff" ;; eb <- hits_of d "below" "eff" ;;
  r <- cat1 ra rb ;; g <- cat1 ga gb ;; u <- cat1 ua ub ;; e <- cat1 ea eb ;;
  r <- mapM (mapM row3) r ;; g <- mapM (mapM row3) g ;; u <- mapM (mapM row3) u ;; e <- mapM (mapM row1) e ;;
  Ok (match ra with [] => 0%nat | row :: _ => List.length row end,
      map2 (fun rg ue => MH (fst rg) (snd rg) (fst ue) (snd ue)) (combine r g) (combine u e)).

(* scattering.py:1128-1135  GenScatterBatch: unit uncertainties *)
Definition used_uncs (gen : bool) (m : mhits) : list v3 :=
  if gen then map (fun _ => V3 (Fin 1) (Fin 1) (Fin 1)) (mh_gen m) else mh_unc m.

(* scattering.py:412-418 and 1128-1135  _compute_tracks: incoming and outgoing *)
Definition tracks1 (gen : bool) (lw : R * R) (n_above : nat) (m : mhits) : res (track * track) :=
  let hs := if gen then mh_gen m else mh_reco m in
  let us := if gen then used_uncs gen m else map2 (fun u e => vmap (fun a => xdiv a e) u) (mh_unc m) (mh_eff m) in
  t_in <- trajectory lw (firstn n_above hs) (firstn n_above us) ;;
  t_out <- trajectory lw (skipn n_above hs) (skipn n_above us) ;;
  Ok (t_in, t_out).

(* scattering.py:497-513  _compute_xyz_in, _compute_xyz_out; zr: bottom and top of the passive volume *)
Definition xyz_in1 (zr : R * R) (t : track) : v3 :=
  let dz := xsub (Fin (snd zr)) (vz (t_start t)) in
  vadd (t_start t) (vscale (xdiv dz (vz (t_vec t))) (t_vec t)).
Definition xyz_out1 (zr : R * R) (t : track) : v3 :=
  let dz := xsub (vz (t_start t)) (Fin (fst zr)) in
  vsub (t_start t) (vscale (xdiv dz (vz (t_vec t))) (t_vec t)).

(* scattering.py:437-458  the mask of _filter_scatters, one muon *)
Definition near1 (lw : R * R) (p : v3) : bool :=
  xlt (Fin (-10 * fst lw)) (vx p) && xlt (Fin (-10 * snd lw)) (vy p)
  && xlt (vx p) (Fin (10 * fst lw)) && xlt (vy p) (Fin (10 * snd lw)).
Definition keep1 (gen : bool) (lw zr : R * R) (m : mhits) (ts : track * track) : bool :=
  let t_in := fst ts in let t_out := snd ts in
  let theta_in := theta1 (t_vec t_in) in
  let theta_out := theta1 (t_vec t_out) in
  let msc := theta_msc1 (t_vec t_in) (t_vec t_out) in
  negb (xeq msc (Fin 0)) && negb (xisnan msc) && negb (xisinf msc)
  && xlt (xsub theta_in (Fin (PI / 2))) (Fin (- (1 / 100000))) && xlt (xsub theta_out (Fin (PI / 2))) (Fin (- (1 / 100000)))
  && near1 lw (xyz_in1 zr t_in) && near1 lw (xyz_out1 zr t_out)
  && forallb (fun u => xlt (vx u) (Fin 10000000000) && xlt (vy u) (Fin 10000000000)) (used_uncs gen m).

(* scattering.py:489-495  coefficients of p1 + t1*v1 + t3*v3 = p2 + t2*v2 by inverting the matrix (v1, -v2, v3).
   The inverse of a matrix of finite numbers is given by cofactors; other matrices give NaN. *)
Definition det3 (a b c : R * R * R) : R :=
  let '(a1, a2, a3) := a in let '(b1, b2, b3) := b in let '(c1, c2, c3) := c in
  a1 * (b2 * c3 - b3 * c2) - b1 * (a2 * c3 - a3 * c2) + c1 * (a2 * b3 - a3 * b2).
Definition fin3 (v : v3) : option (R * R * R) :=
  match v with V3 (Fin x) (Fin y) (Fin z) => Some (x, y, z) | _ => None end.
Definition solve3 (a b c rhs : v3) : res v3 :=
  match fin3 a, fin3 b, fin3 c with
  | Some a, Some b, Some c =>
      let d := det3 a b c in
      if Reqb d 0 then Err LinAlgError
      else match fin3 rhs with
           | Some r => Ok (V3 (Fin (det3 r b c / d)) (Fin (det3 a r c / d)) (Fin (det3 a b r / d)))
           | None => Ok (V3 NaN NaN NaN)
           end
  | _, _, _ => Ok (V3 NaN NaN NaN)
  end.
Definition coefs1 (ts : track * track) : res v3 :=
  let v1 := t_vec (fst ts) in let v2 := t_vec (snd ts) in
  solve3 v1 (vmap xopp v2) (vcross v1 v2) (vsub (t_start (snd ts)) (t_start (fst ts))).

(* what a ScatterBatch holds after construction *)
Record scatters := SB {
  sb_hits : list mhits;                  (* _reco_hits, _gen_hits, _hit_uncs, _hit_effs *)
  sb_above : nat;                        (* _n_hits_above *)
  sb_tracks : list (track * track);      (* _track_in/_start_in, _track_out/_start_out *)
  sb_coefs : list v3 }.                  (* _track_coefs *)

(* scattering.py:98-109, 420-495  __init__, _compute_scatters, _filter_scatters.  The muon batch is changed in place: the
   result holds its new value.  squeeze_() of the (1,1) mask of a single muon gives a mask without axes. *)
Definition read_tracks (gen : bool) (lw : R * R) (b : batch hrow) : res (nat * list mhits * list (track * track)) :=
  d <- get_hits None None b ;;
  nh <- extract_hits d ;;
  ts <- mapM (tracks1 gen lw (fst nh)) (snd nh) ;;
  Ok (fst nh, snd nh, ts).
Definition scatter_batch (gen : bool) (lw zr : R * R) (b : batch hrow) : res (batch hrow * scatters) :=
  first <- read_tracks gen lw b ;;
  let '(n, hs, ts) := first in
  let keep := map2 (keep1 gen lw zr) hs ts in
  kept <- (if forallb (fun k => k) keep then Ok (b, first)
           else match keep with
                | [_] => Err RankChanged
                | _ => b <- filter_muons keep b ;; again <- read_tracks gen lw b ;; Ok (b, again)
                end) ;;
  let '(b, (n, hs, ts)) := kept in
  cs <- mapM coefs1 ts ;;
  Ok (b, SB hs n ts cs).

(* scattering.py:751-762  poca_xyz *)
Definition poca1 (ts : track * track) (c : v3) : v3 :=
  let t_in := fst ts in
  let cross := vcross (t_vec t_in) (t_vec (snd ts)) in
  let q1 := vadd (t_start t_in) (vscale (vx c) (t_vec t_in)) in
  vadd q1 (vmap (fun a => xdiv a (Fin 2)) (vscale (vz c) cross)).

(* scattering.py:164-178  get_scatter_mask, one muon *)
Definition in_passive1 (lw zr : R * R) (p : v3) : bool :=
  xle (Fin 0) (vx p) && xlt (vx p) (Fin (fst lw)) && xle (Fin 0) (vy p) && xlt (vy p) (Fin (snd lw))
  && xle (Fin (fst zr)) (vz p) && xlt (vz p) (Fin (snd zr)).

(* ---------- lazily computed variables (scattering.py:751-1087) ---------- *)
Inductive svar := Poca | Dxy | ThetaIn | ThetaOut | PhiIn | PhiOut | DTheta | DPhi | TotalScatter
  | ThetaXyIn | ThetaXyOut | DThetaXy | XyzIn | XyzOut.
(* a (muons, components) tensor *)
Notation tensor2 := (list (list xr)).
Definition svar_eqb (a b : svar) : bool :=
  match a, b with
  | Poca, Poca | Dxy, Dxy | ThetaIn, ThetaIn | ThetaOut, ThetaOut | PhiIn, PhiIn | PhiOut, PhiOut | DTheta, DTheta | DPhi, DPhi
  | TotalScatter, TotalScatter | ThetaXyIn, ThetaXyIn | ThetaXyOut, ThetaXyOut | DThetaXy, DThetaXy | XyzIn, XyzIn | XyzOut, XyzOut => true
  | _, _ => false
  end.
(* the memo fields _v and _v_unc, None until computed *)
Record memo := Memo { m_val : svar -> option tensor2; m_unc : svar -> option tensor2 }.
Definition empty_memo : memo := Memo (fun _ => None) (fun _ => None).
Definition store {A} (f : svar -> option A) (v : svar) (a : option A) : svar -> option A :=
  fun w => if svar_eqb v w then a else f w.
(* "self._v = x; self._v_unc = None" *)
Definition set_var (v : svar) (x : tensor2) (m : memo) : memo :=
  Memo (store (m_val m) v (Some x)) (store (m_unc m) v None).

Definition l3 (a : v3) : list xr := [vx a; vy a; vz a].
Definition theta_xy_rows (th ph : tensor2) : tensor2 :=
  map2 (fun t p => map2 (fun t p => xatan (xmul (xtan t) (xcos p))) t p ++ map2 (fun t p => xatan (xmul (xtan t) (xsin p))) t p) th ph.

Section Lazy.
Variables (zr : R * R) (sb : scatters).
Variable unc_of : svar -> tensor2 -> tensor2.       (* _compute_out_var_unc: gradients are not modelled *)

Definition per_muon (f : track * track -> list xr) : tensor2 := map f (sb_tracks sb).

(* "if self._v is None: self._v = ...; self._v_unc = None" *)
Definition cached (v : svar) (compute : memo -> tensor2 * memo) (m : memo) : tensor2 * memo :=
  match m_val m v with
  | Some x => (x, m)
  | None => let '(x, m) := compute m in (x, set_var v x m)
  end.
Definition pure (x : tensor2) (m : memo) : tensor2 * memo := (x, m).

Definition get_poca := cached Poca (pure (map2 (fun ts c => l3 (poca1 ts c)) (sb_tracks sb) (sb_coefs sb))).
Definition get_dxy := cached Dxy (pure (map2 (fun ts c =>
  let w := vscale (vz c) (vcross (t_vec (fst ts)) (t_vec (snd ts))) in [vx w; vy w]) (sb_tracks sb) (sb_coefs sb))).
Definition get_theta_in := cached ThetaIn (pure (per_muon (fun ts => [theta1 (t_vec (fst ts))]))).
Definition get_theta_out := cached ThetaOut (pure (per_muon (fun ts => [theta1 (t_vec (snd ts))]))).
Definition get_phi_in := cached PhiIn (pure (per_muon (fun ts => [phi1 (vx (t_vec (fst ts))) (vy (t_vec (fst ts)))]))).
Definition get_phi_out := cached PhiOut (pure (per_muon (fun ts => [phi1 (vx (t_vec (snd ts))) (vy (t_vec (snd ts)))]))).
(* scattering.py:541-554  _set_dtheta_dphi_scatter *)
Definition angle_pairs (ti pi to po : tensor2) : list (list (xr * xr)) :=
  map2 (fun a b => map2 (fun x y => dtheta_dphi1 (fst x) (snd x) (fst y) (snd y)) a b)
       (map2 (fun t p => combine t p) ti pi) (map2 (fun t p => combine t p) to po).
Definition set_dtheta_dphi (m : memo) : memo :=
  let '(ti, m) := get_theta_in m in
  let '(pi, m) := get_phi_in m in
  let '(to, m) := get_theta_out m in
  let '(po, m) := get_phi_out m in
  let vs := angle_pairs ti pi to po in
  let m := Memo (store (store (m_val m) DTheta (Some (map (map fst) vs))) DPhi (Some (map (map snd) vs))) (m_unc m) in
  Memo (m_val m) (store (store (m_unc m) DTheta None) DPhi None).
Definition get_dtheta (m : memo) : tensor2 * memo :=
  let m := match m_val m DTheta with None => set_dtheta_dphi m | Some _ => m end in
  (match m_val m DTheta with Some x => x | None => [] end, m).
Definition get_dphi (m : memo) : tensor2 * memo :=
  let m := match m_val m DPhi with None => set_dtheta_dphi m | Some _ => m end in
  (match m_val m DPhi with Some x => x | None => [] end, m).
Definition get_total := cached TotalScatter (pure (per_muon (fun ts => [theta_msc1 (t_vec (fst ts)) (t_vec (snd ts))]))).
Definition get_theta_xy_in := cached ThetaXyIn (fun m =>
  let '(t, m) := get_theta_in m in let '(p, m) := get_phi_in m in (theta_xy_rows t p, m)).
Definition get_theta_xy_out := cached ThetaXyOut (fun m =>
  let '(t, m) := get_theta_out m in let '(p, m) := get_phi_out m in (theta_xy_rows t p, m)).
Definition get_dtheta_xy := cached DThetaXy (fun m =>
  let '(a, m) := get_theta_xy_in m in let '(b, m) := get_theta_xy_out m in
  (map2 (map2 (fun x y => xabs (xsub x y))) a b, m)).
Definition get_xyz_in := cached XyzIn (pure (per_muon (fun ts => l3 (xyz_in1 zr (fst ts))))).
Definition get_xyz_out := cached XyzOut (pure (per_muon (fun ts => l3 (xyz_out1 zr (snd ts))))).

Definition get_var (v : svar) : memo -> tensor2 * memo :=
  match v with
  | Poca => get_poca | Dxy => get_dxy | ThetaIn => get_theta_in | ThetaOut => get_theta_out | PhiIn => get_phi_in
  | PhiOut => get_phi_out | DTheta => get_dtheta | DPhi => get_dphi | TotalScatter => get_total
  | ThetaXyIn => get_theta_xy_in | ThetaXyOut => get_theta_xy_out | DThetaXy => get_dtheta_xy
  | XyzIn => get_xyz_in | XyzOut => get_xyz_out
  end.
(* "if self._v_unc is None: self._v_unc = self._compute_out_var_unc(self.v)" *)
Definition get_unc (v : svar) (m : memo) : tensor2 * memo :=
  match m_unc m v with
  | Some x => (x, m)
  | None => let '(x, m) := get_var v m in let u := unc_of v x in (u, Memo (m_val m) (store (m_unc m) v (Some u)))
  end.

(* reading properties one after the other; true: the uncertainty *)
Fixpoint read_all (reads : list (svar * bool)) (m : memo) : list tensor2 * memo :=
  match reads with
  | [] => ([], m)
  | (v, u) :: reads =>
      let '(x, m) := if u then get_unc v m else get_var v m in
      let '(xs, m) := read_all reads m in (x :: xs, m)
  end.
End Lazy.
