(* What losses, targets and mixtures should be. *)
From Coq Require Import ZArith.
From Verif Require Import Base.RUtil Base.XR.
Open Scope R_scope.
Open Scope list_scope.

(* c is the class of a known X0 nearest to x *)
Definition nearest_class (d : list (R * Z)) (x : R) (c : Z) : Prop :=
  exists k, In (k, c) d /\ forall k' c', In (k', c') d -> Rabs (k - x) <= Rabs (k' - x).
(* distance of integer i from target t, and the expected distance under probabilities p for the integers start, start + 1, ... *)
Definition dist (mse : bool) (t i : Z) : R := if mse then IZR ((t - i) * (t - i)) else IZR (Z.abs (t - i)).
Definition dists (mse : bool) (t start : Z) (n : nat) : list R := map (fun i => dist mse t (start + Z.of_nat i)) (seq 0 n).
Definition dot (p q : list R) : R := Rsum (map (fun a => fst a * snd a) (combine p q)).
(* components of a mixture: X0, density, amount *)
Record part := Part { p_x0 : R; p_rho : R; p_amount : R }.
Definition sound (m : list part) : Prop := m <> [] /\ Forall (fun p => 0 < p_x0 p /\ 0 < p_rho p /\ 0 < p_amount p) m.
Definition total_of (f : part -> R) (m : list part) : R := Rsum (map f m).
