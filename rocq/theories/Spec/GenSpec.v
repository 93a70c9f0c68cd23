(* The cells of the binned flux, and straight tracks. *)
From Verif Require Import Base.Res Base.XR.
Open Scope R_scope.
Open Scope list_scope.

(* 200 steps in equal ratios and in equal distances *)
Definition energy_edge (r : R * R) (i : nat) : R := fst r * Rpower (snd r / fst r) (INR i / 200).
Definition theta_edge (r : R * R) (i : nat) : R := fst r + INR i / 200 * (snd r - fst r).
Definition centre (edge : nat -> R) (i : nat) : R := (edge i + edge (S i)) / 2.
(* flux of cell k, energies of one angle after another *)
Definition cell_flux (f : R -> R -> R) (er tr : R * R) (k : nat) : R :=
  f (centre (energy_edge er) (k mod 200)) (centre (theta_edge tr) (k / 200)).
(* flux of all cells before cell k *)
Definition flux_before (f : R -> R -> R) (er tr : R * R) (k : nat) : R := Rsum (map (cell_flux f er tr) (seq 0 k)).
Definition total_flux (f : R -> R -> R) (er tr : R * R) : R := flux_before f er tr (200 * 200).
(* the part of the total flux that selects cell k: an interval as long as its flux, closed on the right *)
Definition selects (f : R -> R -> R) (er tr : R * R) (u : R) (k : nat) : Prop :=
  (k < 200 * 200)%nat /\ (k = 0%nat \/ flux_before f er tr k < u) /\ u <= flux_before f er tr k + cell_flux f er tr k.
Definition flux_ok (flux : R -> R -> xr) (f : R -> R -> R) (er tr : R * R) : Prop :=
  (forall i j, (i < 200)%nat -> (j < 200)%nat ->
    let e := centre (energy_edge er) i in let t := centre (theta_edge tr) j in flux e t = Fin (f e t) /\ 0 <= f e t) /\
  0 < total_flux f er tr.
(* x (or y) of a straight track at height z; slope is tan theta cos phi (or sin phi) *)
Definition coord_at (x0 h slope z : R) : R := x0 + (h - z) * slope.
