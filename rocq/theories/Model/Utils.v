(* Model of utils.py: class_to_x0preds, x0targs_to_classtargs, x0_from_mixture. *)
From Coq Require Import ZArith.
From Verif Require Export Base.Res Base.XR.
Open Scope R_scope.
Open Scope list_scope.

(* np.unique / Tensor.unique: the distinct values, ascending *)
Section U.
Context {A : Type} (ltb : A -> A -> bool).
Fixpoint uins (x : A) (l : list A) : list A :=
  match l with [] => [x] | y :: l' => if ltb x y then x :: l else if ltb y x then y :: uins x l' else l end.
Definition unique (l : list A) : list A := fold_right uins [] l.
End U.
(* out[array == i] = v, array and out of the same shape *)
Definition put_where {A B} (eqb : A -> A -> bool) (i : A) (v : B) (array : list A) (out : list B) : list B :=
  map (fun p => if eqb (fst p) i then v else snd p) (combine array out).
(* d[k] for dictionaries as lists of items with different keys, in the order of insertion *)
Fixpoint dget {K V} (eqb : K -> K -> bool) (d : list (K * V)) (k : K) : res V :=
  match d with [] => Err KeyError | (k', v) :: d' => if eqb k' k then Ok v else dget eqb d' k end.
(* min(d, key=lambda x: abs(x - i)): the first of the keys with the smallest distance *)
Fixpoint closer (i : R) (best : R) (l : list R) : R :=
  match l with [] => best | k :: l' => closer i (if Rltb (Rabs (k - i)) (Rabs (best - i)) then k else best) l' end.
Definition nearest (d : list (R * Z)) (i : R) : res R := match d with [] => Err ValueError | (k, _) :: d' => Ok (closer i k (map fst d')) end.
(* x02id[min(x02id, key=lambda x: abs(x - i))] *)
Definition class_of (d : list (R * Z)) (i : R) : res Z := k <- nearest d i ;; dget Reqb d k.

(* 42-57  class_to_x0preds; the state: the array given and the new array *)
Definition class_to_x0preds (array : list Z) (id2x0 : list (Z * R)) : res (list Z * list R) :=
  foldM (fun s i => v <- dget Z.eqb id2x0 i ;; Ok (fst s, put_where Z.eqb i v (fst s) (snd s))) (unique Z.ltb array) (array, repeat 0 (length array)).
(* 60-83  x0targs_to_classtargs *)
Definition x0targs_to_classtargs (array : list R) (x02id : list (R * Z)) : res (list R * list Z) :=
  foldM (fun s i => v <- class_of x02id i ;; Ok (fst s, put_where Reqb i v (fst s) (snd s))) (unique Rltb array) (array, repeat 0%Z (length array)).

(* elementwise operations on arrays with one axis: arrays of one element are repeated *)
Definition bcast {A B C} (e : exn) (f : A -> B -> C) (l : list A) (m : list B) : res (list C) :=
  if Nat.eqb (length l) (length m) then Ok (map (fun p => f (fst p) (snd p)) (combine l m)) else
  match l, m with
  | [x], _ => Ok (map (f x) m)
  | _, [y] => Ok (map (fun x => f x y) l)
  | _, _ => Err e
  end.
Definition xtotal (l : list xr) : xr := fold_right xadd (Fin 0) l.
(* 86-127  x0_from_mixture: (X0, density) *)
Definition x0_from_mixture (x0s densities : list xr) (weight_fracs volume_fracs : option (list xr)) : res (xr * xr) :=
  match weight_fracs, volume_fracs with
  | None, None => Err ValueError
  | Some _, Some _ => Err ValueError
  | _, _ =>
      wf <- match weight_fracs, volume_fracs with
            | Some w, _ => Ok w
            | None, Some v => bcast ValueError xmul densities v
            | None, None => Err ValueError
            end ;;
      let wf := map (fun w => xdiv w (xtotal wf)) wf in
      x0rhos <- bcast ValueError xmul x0s densities ;;
      a <- bcast ValueError xdiv wf x0rhos ;;
      let x0rho := xdiv (Fin 1) (xtotal a) in
      b <- bcast ValueError xdiv wf densities ;;
      let rho := xdiv (Fin 1) (xtotal b) in
      Ok (xdiv x0rho rho, rho)
  end.
