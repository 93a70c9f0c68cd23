(* What the callbacks on detector parameters are meant to do. *)
From Coq Require Import Reals List.
From Verif Require Import Model.DetCb.
Open Scope R_scope.
Open Scope list_scope.

(* the panels of all detector layers, in order *)
Definition panels_of (ds : list dlay) : list ppar := flat_map (fun d => match d with DPanels ps => ps | _ => [] end) ds.
(* two lists of detector layers with the same panels, maybe with other storages *)
Definition same_kind (d d' : dlay) : Prop :=
  match d, d' with DPanels ps, DPanels ps' => length ps = length ps' | DOther, DOther => True | _, _ => False end.
(* a panel has two coordinates, a height and two widths *)
Definition shaped (m : mem) (p : ppar) : Prop := length (rd m (a_xy p)) = 2%nat /\ length (rd m (a_z p)) = 1%nat /\ length (rd m (a_span p)) = 2%nat.
(* from o, a step to n is shortened to r: not longer than b, in the same direction, and not changed if it was not longer *)
Definition step_ok (b o n r : R) : Prop := Rabs (r - o) <= b /\ 0 <= (r - o) * (n - o) /\ Rabs (r - o) <= Rabs (n - o) /\ (Rabs (n - o) <= b -> r = n).
(* the same for each entry of a tensor; no bound: nothing is changed *)
Definition bounded_step (bounds : option (list R)) (old new res : list xr) : Prop :=
  match bounds with
  | None => res = new
  | Some bs => length res = length new /\
      forall k b o n, nth_error bs k = Some b -> nth_error old k = Some (Fin o) -> nth_error new k = Some (Fin n) ->
      exists r, nth_error res k = Some (Fin r) /\ step_ok b o n r
  end.
Definition bounds_xy (lm : limits) : option (list R) := match l_xy lm with Some (x, y) => Some [x; y] | None => None end.
Definition bounds_z (lm : limits) : option (list R) := match l_z lm with Some z => Some [z] | None => None end.
Definition bounds_span (lm : limits) : option (list R) := match l_span lm with Some (x, y) => Some [x; y] | None => None end.
Definition not_negative (bs : option (list R)) : Prop := match bs with Some bs => Forall (fun b => 0 <= b) bs | None => True end.

(* what becomes of an entry of a gradient *)
Definition cleaned (a b : xr) : Prop := xisnan b = false /\ (forall x, a = Fin x -> b = Fin x) /\ (a = NaN -> b = Fin 0) /\ (exists y, b = Fin y).
Definition cleaned_grad (g h : grad) : Prop := match g, h with Some t, Some u => Forall2 cleaned t u | _, _ => False end.
Definition cleaned_layer (l k : glay) : Prop :=
  match l, k with
  | GPanels ps, GPanels qs => Forall2 (fun p q => let '(a, b, c) := p in let '(a', b', c') := q in cleaned_grad a a' /\ cleaned_grad b b' /\ cleaned_grad c c') ps qs
  | GHeat ps, GHeat qs =>
      Forall2 (fun p q => let '(a, b, c, d) := p in let '(a', b', c', d') := q in cleaned_grad a a' /\ cleaned_grad b b' /\ cleaned_grad c c' /\ cleaned_grad d d') ps qs
  | _, _ => False
  end.
(* every parameter of the layer has a gradient *)
Definition has_grad (g : grad) : Prop := g <> None.
Definition with_grads (l : glay) : Prop :=
  match l with
  | GPanels ps => Forall (fun p => let '(a, b, c) := p in has_grad a /\ has_grad b /\ has_grad c) ps
  | GHeat ps => Forall (fun p => let '(a, b, c, d) := p in has_grad a /\ has_grad b /\ has_grad c /\ has_grad d) ps
  | GOther => False
  end.
