(* What the inference of scatterings is meant to do. *)
From Verif Require Import Model.Scatter Spec.MuonSpec Spec.LayerSpec Spec.VolumeSpec.
Open Scope R_scope.
Open Scope string_scope.
Open Scope list_scope.

(* vectors of numbers *)
Notation R3 := (R * R * R)%type.
Definition fv (p : R3) : v3 := let '(x, y, z) := p in V3 (Fin x) (Fin y) (Fin z).
Definition add3 (a b : R3) : R3 := let '(a1, a2, a3) := a in let '(b1, b2, b3) := b in (a1 + b1, a2 + b2, a3 + b3).
Definition sub3 (a b : R3) : R3 := let '(a1, a2, a3) := a in let '(b1, b2, b3) := b in (a1 - b1, a2 - b2, a3 - b3).
Definition scale3 (k : R) (a : R3) : R3 := let '(a1, a2, a3) := a in (k * a1, k * a2, k * a3).
Definition norm3 (a : R3) : R := sqrt (dot3 a a).
Definition z3 (a : R3) : R := snd a.
(* the point at parameter t of the line through p along v *)
Definition on_line (p v : R3) (t : R) : R3 := add3 p (scale3 t v).
(* no scaling of one vector gives the other *)
Definition not_parallel (a b : R3) : Prop :=
  forall s t, scale3 s a = scale3 t b -> s = 0 /\ t = 0.

(* one hit as seen by the track fit: position and uncertainty *)
Record hit_in := Hit { h_x : xr; h_y : xr; h_z : R; u_x : xr; u_y : xr; u_z : xr }.
Definition hit_xyz (h : hit_in) : v3 := V3 (h_x h) (h_y h) (Fin (h_z h)).
Definition hit_unc (h : hit_in) : v3 := V3 (u_x h) (u_y h) (u_z h).
(* a usable pair of position and uncertainty: infinite uncertainties with any position, else numbers *)
Definition fit_ok (x u : xr) : Prop :=
  x <> NaN /\ (u = PInf \/ exists s, u = Fin s /\ 0 < s /\ (2 ^ 75 <= s \/ exists a, x = Fin a)).
(* the measurements (position, height, uncertainty) that have a weight; uncertainties from 2^75 on have none *)
Definition used1 (x : xr) (z : R) (u : xr) : list R3 :=
  match x, u with Fin a, Fin s => if Rlt_dec s (2 ^ 75) then [(a, z, s)] else [] | _, _ => [] end.
Definition used_x (hs : list hit_in) : list R3 := flat_map (fun h => used1 (h_x h) (h_z h) (u_x h)) hs.
Definition used_y (hs : list hit_in) : list R3 := flat_map (fun h => used1 (h_y h) (h_z h) (u_y h)) hs.
Definition two_heights (ms : list R3) : Prop :=
  exists a b, In a ms /\ In b ms /\ snd (fst a) <> snd (fst b).
(* sum of the squared residuals from the line position = a + b * height, each in units of its uncertainty *)
Definition chi2 (a b : R) (ms : list R3) : R :=
  Rsum (map (fun m : R3 => let '(x, z, s) := m in sq ((x - (a + b * z)) / s)) ms).
(* the unique best line *)
Definition best_line (a b : R) (ms : list R3) : Prop :=
  (forall a' b', chi2 a b ms <= chi2 a' b' ms) /\ (forall a' b', chi2 a' b' ms = chi2 a b ms -> a' = a /\ b' = b).
(* the track along x = ax + bx z, y = ay + by z, from height z0 to height z1 *)
Definition track_on (ax bx ay by' z0 z1 : R) : track :=
  Track (fv (bx * (z1 - z0), by' * (z1 - z0), z1 - z0)) (fv (ax + bx * z0, ay + by' * z0, z0)).

(* a track made of numbers *)
Definition ftrack (v p : R3) : track := Track (fv v) (fv p).
Definition midpoint (a b : R3) : R3 := scale3 (1 / 2) (add3 a b).
Definition distance (a b : R3) : R := norm3 (sub3 a b).

(* the direction with polar angle th (from straight down) and azimuth ph *)
Definition direction (th ph : R) : R3 := (sin th * cos ph, sin th * sin ph, - cos th).

(* a track going down, more than 1e-5 rad from the horizontal *)
Definition steep (v : R3) : Prop := sin (1 / 100000) * norm3 v < - z3 v.
(* not further than ten times the size of the volume *)
Definition near (lw : R * R) (p : R3) : Prop :=
  -10 * fst lw < fst (fst p) < 10 * fst lw /\ -10 * snd lw < snd (fst p) < 10 * snd lw.
(* what a muon needs to be kept: two tracks made of numbers, both steep and not parallel to each other, that pass near the
   volume at its top (zr: bottom and top) and bottom, and no hit with a large uncertainty *)
Definition usable (lw zr : R * R) (uncs : list v3) (ts : track * track) : Prop :=
  exists v1 p1 v2 p2, ts = (ftrack v1 p1, ftrack v2 p2)
    /\ steep v1 /\ steep v2 /\ not_parallel v1 v2
    /\ (exists s, z3 (on_line p1 v1 s) = snd zr /\ near lw (on_line p1 v1 s))
    /\ (exists s, z3 (on_line p2 v2 s) = fst zr /\ near lw (on_line p2 v2 s))
    /\ (forall u, In u uncs -> xlt (vx u) (Fin 10000000000) = true /\ xlt (vy u) (Fin 10000000000) = true).

(* the hits of muon i at one position as read back from a batch *)
Definition row_of (d : list (string * list (string * list (list hrow)))) (pos var : string) (i : nat) : list hrow :=
  match assoc2 pos var d with Some t => nth i t [] | None => [] end.
(* m holds the hits of muon i: first those above, then those below *)
Definition hits_of_muon (d : list (string * list (string * list (list hrow)))) (i : nat) (m : mhits) : Prop :=
  map l3 (mh_reco m) = row_of d "above" "reco_xyz" i ++ row_of d "below" "reco_xyz" i
  /\ map l3 (mh_gen m) = row_of d "above" "gen_xyz" i ++ row_of d "below" "gen_xyz" i
  /\ map l3 (mh_unc m) = row_of d "above" "unc_xyz" i ++ row_of d "below" "unc_xyz" i
  /\ map (fun e => [e]) (mh_eff m) = row_of d "above" "eff" i ++ row_of d "below" "eff" i.

(* the scattering variables of a muon, straight from its two tracks (in, out) and the coefficients of the closest points *)
Definition th_in (ts : track * track) : xr := theta1 (t_vec (fst ts)).
Definition th_out (ts : track * track) : xr := theta1 (t_vec (snd ts)).
Definition ph_in (ts : track * track) : xr := phi1 (vx (t_vec (fst ts))) (vy (t_vec (fst ts))).
Definition ph_out (ts : track * track) : xr := phi1 (vx (t_vec (snd ts))) (vy (t_vec (snd ts))).
(* angles of the projections of a direction on the xz and yz planes *)
Definition xproj_x (th ph : xr) : xr := xatan (xmul (xtan th) (xcos ph)).
Definition xproj_y (th ph : xr) : xr := xatan (xmul (xtan th) (xsin ph)).
Definition value (zr : R * R) (sb : scatters) (v : svar) : list (list xr) :=
  let each (f : track * track -> list xr) := map f (sb_tracks sb) in
  match v with
  | Poca => map2 (fun ts c => l3 (poca1 ts c)) (sb_tracks sb) (sb_coefs sb)
  | Dxy => map2 (fun ts c => let w := vscale (vz c) (vcross (t_vec (fst ts)) (t_vec (snd ts))) in [vx w; vy w]) (sb_tracks sb) (sb_coefs sb)
  | ThetaIn => each (fun ts => [th_in ts])
  | ThetaOut => each (fun ts => [th_out ts])
  | PhiIn => each (fun ts => [ph_in ts])
  | PhiOut => each (fun ts => [ph_out ts])
  | DTheta => each (fun ts => [fst (dtheta_dphi1 (th_in ts) (ph_in ts) (th_out ts) (ph_out ts))])
  | DPhi => each (fun ts => [snd (dtheta_dphi1 (th_in ts) (ph_in ts) (th_out ts) (ph_out ts))])
  | TotalScatter => each (fun ts => [theta_msc1 (t_vec (fst ts)) (t_vec (snd ts))])
  | ThetaXyIn => each (fun ts => [xproj_x (th_in ts) (ph_in ts); xproj_y (th_in ts) (ph_in ts)])
  | ThetaXyOut => each (fun ts => [xproj_x (th_out ts) (ph_out ts); xproj_y (th_out ts) (ph_out ts)])
  | DThetaXy => each (fun ts => [xabs (xsub (xproj_x (th_in ts) (ph_in ts)) (xproj_x (th_out ts) (ph_out ts)));
                                 xabs (xsub (xproj_y (th_in ts) (ph_in ts)) (xproj_y (th_out ts) (ph_out ts)))])
  | XyzIn => each (fun ts => l3 (xyz_in1 zr (fst ts)))
  | XyzOut => each (fun ts => l3 (xyz_out1 zr (snd ts)))
  end.

(* the uncertainties of the hits of a muon: those of the panels, or 1 for a batch made of true hits *)
Definition hit_uncs (gen : bool) (m : mhits) : list v3 :=
  if gen then map (fun _ => fv (1, 1, 1)) (mh_gen m) else mh_unc m.
(* a hit of efficiency e counts as one with an uncertainty that is 1/e times as large *)
Definition widen (u : xr) (e : R) : xr := match u with Fin s => Fin (s / e) | _ => u end.
Definition weigh (he : hit_in * R) : hit_in :=
  let (h, e) := he in Hit (h_x h) (h_y h) (h_z h) (widen (u_x h) e) (widen (u_y h) e) (widen (u_z h) e).
