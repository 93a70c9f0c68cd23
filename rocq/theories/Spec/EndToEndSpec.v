(* What a scatter batch should say about a muon: C102 (made of true hits), C105 (made of recorded hits without noise). *)
From Verif Require Import Model.Volume Model.Scatter Spec.MuonSpec Spec.AngleSpec Spec.LayerSpec Spec.VolumeSpec Spec.ScatterSpec.
Open Scope R_scope.
Open Scope string_scope.
Open Scope list_scope.

(* where a muon is and where it is heading *)
Definition place (c : go_case) : R3 := (g_x c, g_y c, g_z c).
Definition heading (c : go_case) : R3 := direction (g_th c) (g_ph c).
(* the point s along the line of flight *)
Definition flight (c : go_case) (s : R) : R3 := on_line (place c) (heading c) s.

(* entry i of a variable of the scatter batch *)
Definition entry (zr : R * R) (sb : scatters) (v : svar) (i : nat) (x : list xr) : Prop := nth_error (value zr sb v) i = Some x.
(* an azimuth that points in the direction ph *)
Definition same_azimuth (x : xr) (ph : R) : Prop := exists a, x = Fin a /\ 0 <= a < 2 * PI /\ cos a = cos ph /\ sin a = sin ph.

(* entry i of the scatter batch tells how a muon c0 came in and how a muon c1 went out: the polar angles, the azimuths
   (of muons that are not vertical), the places at the top and at the bottom of the passive volume (zr: bottom and top), the
   angle between the two directions, and the point halfway between the closest points of the two lines of flight *)
Definition tells (zr : R * R) (sb : scatters) (i : nat) (c0 c1 : go_case) : Prop :=
  entry zr sb ThetaIn i [Fin (g_th c0)] /\ entry zr sb ThetaOut i [Fin (g_th c1)]
  /\ (exists x, entry zr sb PhiIn i [x] /\ (0 < g_th c0 -> same_azimuth x (g_ph c0)))
  /\ (exists x, entry zr sb PhiOut i [x] /\ (0 < g_th c1 -> same_azimuth x (g_ph c1)))
  /\ entry zr sb XyzIn i (xyz (at_height c0 (snd zr))) /\ entry zr sb XyzOut i (xyz (at_height c1 (fst zr)))
  /\ (exists a, entry zr sb TotalScatter i [Fin a] /\ 0 < a <= PI /\ cos a = dot3 (heading c0) (heading c1))
  /\ exists s t, entry zr sb Poca i (l3 (fv (midpoint (flight c0 s) (flight c1 t))))
       /\ forall s' t', distance (flight c0 s) (flight c1 t) <= distance (flight c0 s') (flight c1 t').

(* a muon that came in as c0 and went out as c1 can be used: both directions more than 1e-5 rad from the horizontal, not the
   same line of direction, and near the volume where the muon came in (top) and went out (bottom) *)
Definition clear (lw zr : R * R) (c0 c1 : go_case) : Prop :=
  sin (1 / 100000) < cos (g_th c0) /\ sin (1 / 100000) < cos (g_th c1) /\ not_parallel (heading c0) (heading c1)
  /\ (exists s, z3 (flight c0 s) = snd zr /\ near lw (flight c0 s)) /\ (exists s, z3 (flight c1 s) = fst zr /\ near lw (flight c1 s)).

(* a muon flies through a panel *)
Definition through (P : panel) (c : go_case) : Prop :=
  exists s x y, flight c s = (x, y, pn_z P)
    /\ pn_x P - span_x P / 2 <= x < pn_x P + span_x P / 2 /\ pn_y P - span_y P / 2 <= y < pn_y P + span_y P / 2.
(* ... through every panel of the detectors at one position *)
Definition through_all (pos : string) (ls : list layer) (c : go_case) : Prop :=
  forall D P, In (LDet D) ls -> dl_pos D = pos -> In P (dl_panels D) -> through P c.
