(* What uncertainties from gradients are meant to be. *)
From Verif Require Import Base.RUtil Model.Grad.
Open Scope R_scope.
Open Scope list_scope.

(* x with the k-th entry replaced *)
Definition set_at {A} (k : nat) (t : A) (x : list A) : list A := firstn k x ++ t :: skipn (S k) x.
(* d is the derivative of f at x along the k-th number *)
Definition partial (f : list R -> R) (x : list R) (k : nat) (d : R) : Prop := derivable_pt_lim (fun t => f (set_at k t x)) (nth k x 0) d.
(* what autograd is trusted to give for outputs f 0, ..., f (n - 1) at x: every entry is the derivative, or not a number *)
Definition right_gradients (n : nat) (f : nat -> list R -> R) (x : list R) (vjp : list R -> option (list xr)) : Prop :=
  forall a, (a < n)%nat -> exists row, vjp (unit_row n a) = Some row /\ List.length row = List.length x
    /\ forall b, (b < List.length x)%nat -> nth b row NaN = NaN \/ exists d, nth b row NaN = Fin d /\ partial (f a) x b d.
(* the derivative of output a along the b-th number is known *)
Definition has_gradient (n : nat) (vjp : list R -> option (list xr)) (a b : nat) : Prop :=
  exists row d, vjp (unit_row n a) = Some row /\ nth b row NaN = Fin d.
(* first-order propagation of independent uncertainties *)
Definition quadrature (ds us : list R) : R := sqrt (Rsum (map2 (fun d u => (d * u) * (d * u)) ds us)).
(* an infinite uncertainty counts as none *)
Definition counted (u : xr) (r : R) : Prop := u = Fin r \/ (xisinf u = true /\ r = 0).

(* Variables of a batch of M muons with K numbers per muon: component c of muon m is g m c of the hits of that muon alone. *)
Definition per_muon_var (nv : nat) (g : nat -> nat -> list R -> R) (f : nat -> list R -> R) (K M : nat) : Prop :=
  forall hs m c, List.length hs = M -> Forall (fun h => List.length h = K) hs -> (m < M)%nat -> (c < nv)%nat ->
    f (m * nv + c)%nat (concat hs) = g m c (nth m hs []).
(* x, y, z of every hit in one list, and the hits *)
Fixpoint as_hits (h : list R) : list v3 :=
  match h with x :: y :: z :: h' => V3 (Fin x) (Fin y) (Fin z) :: as_hits h' | _ => [] end.
(* With two panels above: x and y of the point where the track reaches the top of the volume (zr: bottom and top), as functions of the
   hits of a muon, where the code gives a number.  ws: the widths the hits are weighted with *)
Definition entry_x (lw zr : R * R) (ws : list v3) (g : list R -> R) : Prop :=
  forall h t x, trajectory lw (firstn 2 (as_hits h)) ws = Ok t -> vx (xyz_in1 zr t) = Fin x -> g h = x.
Definition entry_y (lw zr : R * R) (ws : list v3) (g : list R -> R) : Prop :=
  forall h t x, trajectory lw (firstn 2 (as_hits h)) ws = Ok t -> vy (xyz_in1 zr t) = Fin x -> g h = x.
(* a width that gives a weight in float32 *)
Definition weight_ok (w : R) : Prop := 0 < w < 2 ^ 75.
