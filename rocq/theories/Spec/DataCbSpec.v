(* What C52 and C55 mean, in terms of straight lines and layers. *)
From Coq Require Import Reals List.
From Verif Require Import Model.DataCb.
Import ListNotations.
Open Scope R_scope.
Open Scope list_scope.

(* the muon r starts at (x, y) and flies downwards with the angles th and ph *)
Definition starts (r : row5) (x y th ph : R) : Prop := exists p, r = (Fin x, Fin y, p, Fin th, Fin ph) /\ 0 <= th < PI / 2.
Definition flies (r : row5) : Prop := exists x y th ph, starts r x y th ph.
(* on a straight line from the height h, it is over the area lx times ly at the height z *)
Definition over_at (lx ly h : R) (r : row5) (z : R) : Prop :=
  exists x y th ph, starts r x y th ph
    /\ 0 <= x + (h - z) * (tan th * cos ph) < lx /\ 0 <= y + (h - z) * (tan th * sin ph) < ly.
(* all passive layers cover the same area *)
Definition covers (ls : list layer) (lx ly : R) : Prop := forall L, In L (passives ls) -> pl_lx L = lx /\ pl_ly L = ly.
(* it is inside of some passive layer at some height *)
Definition crosses (lx ly h : R) (ls : list layer) (r : row5) : Prop :=
  exists L z, In L (passives ls) /\ pl_z L - pl_size L <= z <= pl_z L /\ over_at lx ly h r z.
(* it enters some passive layer from above *)
Definition enters (lx ly h : R) (ls : list layer) (r : row5) : Prop :=
  exists L, In L (passives ls) /\ over_at lx ly h r (pl_z L).
(* n passive layers of height s, one below the other, the first one at the height up *)
Definition stacked (ls : list layer) (up s : R) (n : nat) : Prop :=
  0 < s /\ length (passives ls) = n /\ (0 < n)%nat
  /\ forall k L, nth_error (passives ls) k = Some L -> pl_z L = up - INR k * s /\ pl_size L = s.
(* the height z is in layer number k from the top; the top is not part of a layer *)
Definition in_layer (ls : list layer) (k : nat) (z : R) : Prop :=
  exists L, nth_error (passives ls) k = Some L /\ pl_z L - pl_size L <= z < pl_z L.
