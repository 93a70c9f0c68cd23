(* Walls on a grid, seen from above. *)
From Coq Require Import ZArith List Arith.
Import ListNotations.
Open Scope nat_scope.

Definition cell : Type := (nat * nat)%type.
Definition on_grid (nx ny : nat) (p : cell) : Prop := fst p < nx /\ snd p < ny.
(* cells with a common side *)
Definition next_to (p q : Z * Z) : Prop := (Z.abs (fst p - fst q) + Z.abs (snd p - snd q) = 1)%Z.
Definition at_z (p : cell) : Z * Z := (Z.of_nat (fst p), Z.of_nat (snd p)).
Fixpoint chain (l : list cell) : Prop := match l with p :: (q :: _) as l' => next_to (at_z p) (at_z q) /\ chain l' | _ => True end.
(* something stands on the cell *)
Definition occupied (nz : nat) (m : nat -> nat -> nat -> bool) (p : cell) : Prop := exists z, z < nz /\ m z (fst p) (snd p) = true.
(* beside p the grid ends, or something stands in m *)
Definition blocked (nz nx ny : nat) (m : nat -> nat -> nat -> bool) (p : cell) : Prop :=
  exists q, next_to (at_z p) q /\ ((forall c, on_grid nx ny c -> at_z c <> q) \/ exists c, q = at_z c /\ occupied nz m c).
(* m' is m with a wall from g up to h on the cells of the path *)
Definition walled (nz : nat) (m m' : nat -> nat -> nat -> bool) (g h : nat) (path : list cell) : Prop :=
  forall z x y, m' z x y = true <-> m z x y = true \/ In (x, y) path /\ g <= z < h /\ z < nz.
