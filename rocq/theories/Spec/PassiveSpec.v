(* Boxes in the passive volume, and voxels by their centres. *)
From Coq Require Import ZArith.
From Verif Require Import Base.Res Base.XR Model.Passives.
Open Scope R_scope.

Definition in_unit (r : vec3) : Prop := let '(a, b, c) := r in 0 <= a < 1 /\ 0 <= b < 1 /\ 0 <= c < 1.
Definition dims (w : world) : vec3 := (fst (w_lw w), snd (w_lw w), snd (w_z w) - fst (w_z w)).
Definition all3 (P : R -> R -> Prop) (a b : vec3) : Prop := let '(x, y, z) := a in let '(x', y', z') := b in P x x' /\ P y y' /\ P z z'.
(* inside of the passive volume *)
Definition contained (w : world) (low high : vec3) : Prop :=
  let '(lx, ly, lz) := low in let '(hx, hy, hz) := high in
  0 <= lx <= hx /\ hx <= fst (w_lw w) /\ 0 <= ly <= hy /\ hy <= snd (w_lw w) /\ fst (w_z w) <= lz <= hz /\ hz <= snd (w_z w).
(* centre of voxel number i along an axis *)
Definition mid (size : R) (i : Z) : R := (IZR i + 1 / 2) * size.
(* the layer with top z and the voxel (i, j) lie in the block: the voxel's centre strictly, or at most on the surface *)
Definition inside (low high : vec3) (size z : R) (i j : Z) : Prop :=
  let '(lx, ly, lz) := low in let '(hx, hy, hz) := high in lz <= z <= hz /\ lx < mid size i < hx /\ ly < mid size j < hy.
Definition touches (low high : vec3) (size z : R) (i j : Z) : Prop :=
  let '(lx, ly, lz) := low in let '(hx, hy, hz) := high in lz <= z <= hz /\ lx <= mid size i <= hx /\ ly <= mid size j <= hy.
Definition voxel (m : list (list R)) (i j : Z) : option R :=
  match nth_error m (Z.to_nat i) with Some r => nth_error r (Z.to_nat j) | None => None end.
