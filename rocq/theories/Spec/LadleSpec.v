(* The ladle: layers counted from the bottom, starting with 1; fill up to layer a, slag up to layer b, air above. *)
From Coq Require Import ZArith.
From Verif Require Import Base.Res Base.XR Model.Ladle.
Open Scope R_scope.

Definition stack (m : ladle_x0s) (a b k : Z) : R :=
  (if k =? 1 then lx_furnace m else if k <=? a then lx_fill m else if k <=? b then lx_slag m else lx_air m)%Z.
Definition on_border (nx ny i j : Z) : Prop := (i = 0 \/ i = nx - 1 \/ j = 0 \/ j = ny - 1)%Z.
(* voxel (i, j) of layer k *)
Definition voxel3 (c : list (list (list R))) (k i j : Z) : option R :=
  match nth_error c (Z.to_nat (k - 1)) with
  | Some l => match nth_error l (Z.to_nat i) with Some r => nth_error r (Z.to_nat j) | None => None end
  | None => None
  end.
(* positive numbers; a cube of nz layers of nx rows of ny voxels; a probability distribution *)
Definition pos (l : list R) : Prop := Forall (fun x => 0 < x) l.
Definition cube_shape (nz nx ny : nat) (x : list (list (list R))) : Prop := length x = nz /\ Forall (fun l => length l = nx /\ Forall (fun r => length r = ny) l) x.
Definition cube_pos (x : list (list (list R))) : Prop := Forall (Forall pos) x.
Definition distribution (x : list xr) : Prop := exists p, x = map Fin p /\ pos p /\ Rsum p = 1.
(* pixels: squares with lower corner e, half open *)
Definition in_pixel (size : R) (p e : R * R) : bool :=
  Rleb (fst e) (fst p) && Rltb (fst p) (fst e + size) && (Rleb (snd e) (snd p) && Rltb (snd p) (snd e + size)).
Definition pixels_at (lw : R * R) (size : R) (p : R * R) : nat := length (filter (in_pixel size p) (xy_edges lw size)).
(* the predictions made for target t *)
Definition preds_of (t : R) (l : list (R * list R)) : list (list R) := map snd (filter (fun tp => Reqb t (fst tp)) l).
Definition mean (l : list R) : R := Rsum l / INR (length l).
(* the muon, shifted upwards *)
Definition raise_muon (d : R) (m : seen) : seen := let '(x, y, z) := sn_poca m in Seen (x, y, z + d) (sn_unc m) (sn_eff m).
(* v is the k-th smallest number of the list *)
Definition kth (k : Z) (l : list R) (v : R) : Prop :=
  In v l /\ (Z.of_nat (length (filter (fun y => Rltb y v) l)) < k <= Z.of_nat (length (filter (fun y => Rleb y v) l)))%Z.
