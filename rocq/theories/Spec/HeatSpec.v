(* What heat maps are meant to do. *)
From Verif Require Import Model.Heat.
Open Scope R_scope.
Open Scope list_scope.

(* a heat map as it is after construction and training: some components, widths and scale positive *)
Definition heat_ok (H : heat) : Prop :=
  0 < ht_res H /\ 0 < ht_eff H /\ 0 < ht_norm H /\ ht_comps H <> []
  /\ forall c, In c (ht_comps H) -> 0 < fst (snd c) /\ 0 < snd (snd c).

(* the density of a component at a point, up to the common factor 1 / (2 pi n) *)
Definition bell (c : (R * R) * (R * R)) (x y : R) : R :=
  let '((mx, my), (sx, sy)) := c in
  exp (- sq ((x - mx) / sx) / 2) * exp (- sq ((y - my) / sy) / 2) / (sx * sy).
Definition density (cs : list ((R * R) * (R * R))) (x y : R) : R := Rsum (map (fun c => bell c x y) cs).
(* m is the largest of the densities at the means *)
Definition peak (cs : list ((R * R) * (R * R))) (m : R) : Prop :=
  (exists c, In c cs /\ m = density cs (fst (fst c)) (snd (fst c)))
  /\ forall c, In c cs -> density cs (fst (fst c)) (snd (fst c)) <= m.

(* the parameters a conformed heat map may have: means in a square, widths up to 1.2 times the width of the layer *)
Definition heat_inside (lo hi ly zlo zhi : R) (H : heat) : Prop :=
  (forall c, In c (ht_comps H) -> let '((mx, my), (sx, sy)) := c in
     lo <= mx <= hi /\ lo <= my <= hi /\ 0 <= sx <= 6 / 5 * ly /\ 0 <= sy <= 6 / 5 * ly)
  /\ 1 / 100 <= ht_norm H <= 3 / 2 /\ zlo <= ht_z H <= zhi.
(* everything but means, widths, scale and height *)
Definition same_frame (H H' : heat) : Prop :=
  ht_res H' = ht_res H /\ ht_eff H' = ht_eff H /\ ht_m2 H' = ht_m2 H /\ ht_fix H' = ht_fix H /\ ht_span H' = ht_span H /\ ht_real H' = ht_real H
  /\ List.length (ht_comps H') = List.length (ht_comps H).
