(* Voxels and combined variables with all lengths multiplied by k (C114). *)
From Coq Require Import Reals List.
From Verif Require Import Model.Volume Model.X0Infer Spec.EnlargeSpec.
From Verif Require Import Base.XR.
Open Scope R_scope.
Open Scope list_scope.

Definition big3 (k : R) (p : R * R * R) : R * R * R := let '(x, y, z) := p in (k * x, k * y, k * z).
Definition big_grid (k : R) (g : grid) : grid := Grid (g_nx g) (g_ny g) (g_nz g) (k * g_size g) (map (big3 k) (g_edges g)).
(* the first three columns are places, the others angles and momenta *)
Definition big_vars (k : R) (row : list xr) : list xr := match row with x :: y :: z :: r => big k x :: big k y :: big k z :: r | _ => row end.
(* only the distance from the middle in units of the width matters, as for every Normal *)
Definition in_widths (cdf : R -> R -> R -> R) : Prop := forall k l s x, 0 < k -> cdf (k * l) (k * s) (k * x) = cdf l s x.
(* the width of a Normal is the uncertainty plus 1e-7 *)
Definition widths_big (k : R) (u u' : R * R * R) : Prop :=
  let '(x, y, z) := u in let '(x', y', z') := u' in
  x' + 1 / 10000000 = k * (x + 1 / 10000000) /\ y' + 1 / 10000000 = k * (y + 1 / 10000000) /\ z' + 1 / 10000000 = k * (z + 1 / 10000000).
