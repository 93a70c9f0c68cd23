(* Cells of a grid given by its edges. *)
From Verif Require Import Model.MuonBatch.
Open Scope list_scope.

(* consecutive pairs of edges: [e0,e1), [e1,e2), ... *)
Definition intervals (e : list xr) : list (xr * xr) := combine e (tl e).
(* edges strictly increasing (so none is NaN, except that a single edge is unconstrained) *)
Fixpoint increasing (e : list xr) : Prop :=
  match e with
  | a :: ((b :: _) as e') => xlt a b = true /\ increasing e'
  | _ => True
  end.
(* cells of the grid: ((x low, x high), (y low, y high)) *)
Definition grid_cells (ex ey : list xr) : list ((xr * xr) * (xr * xr)) := list_prod (intervals ex) (intervals ey).
