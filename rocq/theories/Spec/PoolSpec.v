(* What averaging over neighbouring voxels is meant to do. *)
Require Import Reals ZArith List.
From Verif Require Import Base.RUtil.
Open Scope R_scope.
Import ListNotations.

(* all voxels (layer, x, y) of a grid *)
Definition cells (nz nx ny : nat) : list (nat * nat * nat) :=
  flat_map (fun k => flat_map (fun i => map (fun j => (k, i, j)) (seq 0 ny)) (seq 0 nx)) (seq 0 nz).
(* the entry of a voxel in a flattened grid *)
Definition at_cell (nx ny : nat) (l : list R) (c : nat * nat * nat) : R :=
  let '(k, i, j) := c in nth ((k * nx + i) * ny + j) l 0.
(* not more than one apart *)
Definition close (a b : nat) : bool := (Z.abs (Z.of_nat a - Z.of_nat b) <=? 1)%Z.
(* the same voxel, or two that share a face, an edge or a corner *)
Definition touching (c d : nat * nat * nat) : bool :=
  let '(k, i, j) := c in let '(k', i', j') := d in close k k' && close i i' && close j j'.
Definition average (l : list R) : R := Rsum l / INR (length l).
