(* Moving the origin, exchanging x and y (C110). *)
From Coq Require Import Reals List.
From Verif Require Export Model.Scatter Spec.ScatterSpec.
Import ListNotations.
Open Scope R_scope.
Open Scope list_scope.

(* everything moved by (a, b, c); what is infinite stays so *)
Definition xmove (a : R) (x : xr) : xr := match x with Fin r => Fin (r + a) | _ => x end.
Definition moved_hit (a b c : R) (h : hit_in) : hit_in := Hit (xmove a (h_x h)) (xmove b (h_y h)) (h_z h + c) (u_x h) (u_y h) (u_z h).
Definition moved_v (a b c : R) (p : v3) : v3 := V3 (xmove a (vx p)) (xmove b (vy p)) (xmove c (vz p)).
Definition moved_track (a b c : R) (t : track) : track := Track (t_vec t) (moved_v a b c (t_start t)).
Definition moved_row (a b c : R) (r : list xr) : list xr := match r with [x; y; z] => [xmove a x; xmove b y; xmove c z] | _ => r end.
Definition moved_scatters (a b c : R) (sb : scatters) : scatters :=
  SB (sb_hits sb) (sb_above sb) (map (fun ts => (moved_track a b c (fst ts), moved_track a b c (snd ts))) (sb_tracks sb)) (sb_coefs sb).
(* places move, angles and differences do not *)
Definition is_place (v : svar) : bool := match v with Poca | XyzIn | XyzOut => true | _ => false end.

(* x and y exchanged *)
Definition flip_v (p : v3) : v3 := V3 (vy p) (vx p) (vz p).
Definition flip2 {A} (p : A * A) : A * A := (snd p, fst p).
Definition flip_track (t : track) : track := Track (flip_v (t_vec t)) (flip_v (t_start t)).
Definition flip_tracks (ts : track * track) : track * track := (flip_track (fst ts), flip_track (snd ts)).
Definition flip_hits (m : mhits) : mhits := MH (map flip_v (mh_reco m)) (map flip_v (mh_gen m)) (map flip_v (mh_unc m)) (mh_eff m).
Definition flip_row (r : list xr) : list xr := match r with [x; y] => [y; x] | [x; y; z] => [y; x; z] | _ => r end.

(* the uncertainties of a hit times k *)
Definition xtimes (k : R) (u : xr) : xr := match u with Fin s => Fin (k * s) | _ => u end.
Definition coarser (k : R) (h : hit_in) : hit_in := Hit (h_x h) (h_y h) (h_z h) (xtimes k (u_x h)) (xtimes k (u_y h)) (xtimes k (u_z h)).
(* an uncertainty that is as usable when multiplied by k *)
Definition same_use (k : R) (u : xr) : Prop := forall s, u = Fin s -> (s < 2 ^ 75 <-> k * s < 2 ^ 75).
(* two tracks on one line *)
Definition same_line (t t' : track) : Prop :=
  exists ax bx ay by' z0 z1 z0' z1', t = track_on ax bx ay by' z0 z1 /\ t' = track_on ax bx ay by' z0' z1'.
(* a scatter batch as it is after construction: tracks made of numbers, going down and not parallel, with their coefficients *)
Definition sound_scatters (sb : scatters) : Prop :=
  Forall2 (fun ts c => exists v1 p1 v2 p2, ts = (ftrack v1 p1, ftrack v2 p2) /\ z3 v1 < 0 /\ z3 v2 < 0 /\ not_parallel v1 v2 /\ coefs1 ts = Ok c) (sb_tracks sb) (sb_coefs sb).
(* the azimuths f, before, and g, after x and y are exchanged *)
Definition mirrored (f g : list xr) : Prop := exists a b, f = [Fin a] /\ g = [Fin b] /\ 0 <= a < 2 * PI /\ 0 <= b < 2 * PI /\ (a + b = PI / 2 \/ a + b = 5 * PI / 2).
Definition not_vertical (ts : track * track) : Prop :=
  let v := t_vec (fst ts) in let w := t_vec (snd ts) in (vx v <> Fin 0 \/ vy v <> Fin 0) /\ (vx w <> Fin 0 \/ vy w <> Fin 0).
(* the first two of these hits are at the same height *)
Definition level (hs : list v3) : Prop := exists h0 h1 rest z, hs = h0 :: h1 :: rest /\ vz h0 = Fin z /\ vz h1 = Fin z.
Definition is_azimuth (v : svar) : bool := match v with PhiIn | PhiOut | DTheta | DPhi => true | _ => false end.
