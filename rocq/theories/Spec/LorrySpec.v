(* Maps of the layers of a volume. *)
From Coq Require Import Reals List.
From Verif Require Import Model.Passives.
Import ListNotations.
Open Scope R_scope.

(* a volume of nx by ny by nz whole voxels *)
Definition whole (w : world) (nx ny nz : nat) : Prop :=
  0 < w_size w /\ w_lw w = (INR nx * w_size w, INR ny * w_size w) /\ snd (w_z w) = fst (w_z w) + INR nz * w_size w.
(* the z of the top of layer k, from below *)
Definition top (w : world) (k : nat) : R := fst (w_z w) + INR (k + 1) * w_size w.
Definition at_ij {A} (m : list (list A)) (i j : nat) : option A := match nth_error m i with Some r => nth_error r j | None => None end.
(* a map of one layer: nx rows of ny entries, which satisfy P *)
Definition layer_map {A} (m : list (list A)) (nx ny : nat) (P : nat -> nat -> A -> Prop) : Prop :=
  length m = nx /\ Forall (fun r => length r = ny) m /\ forall i j, (i < nx)%nat -> (j < ny)%nat -> exists v, at_ij m i j = Some v /\ P i j v.
(* the material behind the block: the lorry in the lowest layer, cargo up to the height h, air above *)
Definition behind (w : world) (h x0_lorry air : R) (bkg : list R) (k : nat) (v : R) : Prop :=
  (k = 0%nat -> v = x0_lorry) /\ ((0 < k)%nat -> top w k <= h -> In v bkg) /\ ((0 < k)%nat -> h < top w k -> v = air).
(* the boxes of voxels *)
Record box := Box { bx_i : nat; bx_j : nat; bx_k : nat; bx_a : nat; bx_b : nat; bx_c : nat }.
Definition in_box (b : box) (i j k : nat) : Prop :=
  (bx_i b <= i < bx_i b + bx_a b)%nat /\ (bx_j b <= j < bx_j b + bx_b b)%nat /\ (bx_k b <= k < bx_k b + bx_c b)%nat.
