(* Pipelines of the ladle inferrer. *)
From Verif Require Import Base.Res Base.XR Model.Pipeline.
Open Scope R_scope.

(* steps that keep the three axes of the X0s, and steps that keep the layers of a profile; both without the Gaussian ones *)
Definition of_cubes (s : step) : Prop := s = RemoveLadle \/ s = Avg3d.
Definition of_profiles (s : step) : Prop := s = Avg1d \/ (exists k, s = EdgeDet k) \/ s = MaxSubMin \/ s = Negative.
(* how often the ladle is removed *)
Definition removals (p : list step) : nat := length (filter (fun s => match s with RemoveLadle => true | _ => false end) p).
(* the neighbours of entry i of a profile; the ends are repeated *)
Definition left_of (l : list R) (i : nat) : R := match i with O => nth 0 l 0 | S j => nth j l 0 end.
Definition right_of (l : list R) (i : nat) : R := if Nat.ltb (S i) (length l) then nth (S i) l 0 else nth i l 0.
(* v is the largest (smallest) of entry i and its neighbours *)
Definition highest (l : list R) (i : nat) (v : R) : Prop :=
  (v = left_of l i \/ v = nth i l 0 \/ v = right_of l i) /\ left_of l i <= v /\ nth i l 0 <= v /\ right_of l i <= v.
Definition lowest (l : list R) (i : nat) (v : R) : Prop :=
  (v = left_of l i \/ v = nth i l 0 \/ v = right_of l i) /\ v <= left_of l i /\ v <= nth i l 0 /\ v <= right_of l i.
