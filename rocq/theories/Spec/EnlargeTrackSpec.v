(* Hits, tracks and scatterings with all lengths multiplied by k (C114). *)
From Coq Require Import Reals List.
From Verif Require Export Model.Scatter Spec.ScatterSpec Spec.SymmetrySpec.
Import ListNotations.
Open Scope R_scope.
Open Scope list_scope.

Section EnlargeTrack.
Variable k : R.
(* xtimes k: k times a number; what is infinite stays so *)
Definition big_v (p : v3) : v3 := V3 (xtimes k (vx p)) (xtimes k (vy p)) (xtimes k (vz p)).
Definition far_hit (h : hit_in) : hit_in := Hit (xtimes k (h_x h)) (xtimes k (h_y h)) (k * h_z h) (u_x h) (u_y h) (u_z h).
Definition big_hit (h : hit_in) : hit_in := Hit (xtimes k (h_x h)) (xtimes k (h_y h)) (k * h_z h) (xtimes k (u_x h)) (xtimes k (u_y h)) (xtimes k (u_z h)).
Definition big_track (t : track) : track := Track (big_v (t_vec t)) (big_v (t_start t)).
Definition big_tracks (ts : track * track) : track * track := (big_track (fst ts), big_track (snd ts)).
Definition big_pair (p : R * R) : R * R := (k * fst p, k * snd p).
(* variables that are lengths; the others are angles *)
Definition is_length (v : svar) : bool := match v with Poca | Dxy | XyzIn | XyzOut => true | _ => false end.
End EnlargeTrack.

(* uncertainties below the limit of 1e10 that the hits of a kept muon have *)
Definition small_unc (us : list v3) : Prop := forall u, In u us -> xlt (vx u) (Fin 10000000000) = true /\ xlt (vy u) (Fin 10000000000) = true.
