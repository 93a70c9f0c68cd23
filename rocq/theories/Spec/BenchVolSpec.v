(* What the detector layouts of the benchmarks are meant to be. *)
From Coq Require Import ZArith.
From Verif Require Import Model.Volume Spec.VolumeSpec.
Open Scope R_scope.
Open Scope string_scope.
Open Scope list_scope.

(* top and thickness of a layer *)
Definition extent (l : layer) : R * R := match l with LPass L => (pl_z L, pl_size L) | LDet D => (dl_z D, dl_size D) end.
(* layers from top to bottom, each one starting where the one above ends *)
Fixpoint flush (top : R) (ls : list layer) (bottom : R) : Prop :=
  match ls with [] => top = bottom | l :: ls => fst (extent l) = top /\ 0 < snd (extent l) /\ flush (top - snd (extent l)) ls bottom end.
(* the panels of a detector layer lie in it, from the highest to the lowest *)
Fixpoint descending (l : list R) : Prop :=
  match l with a :: (b :: _) as l' => b < a /\ descending l' | _ => True end.
Definition panels_inside (D : detlayer) : Prop :=
  dl_panels D <> [] /\ Forall (fun P => dl_z D - dl_size D <= pn_z P <= dl_z D) (dl_panels D) /\ descending (map pn_z (dl_panels D)).
(* one detector layer above the passive layers, one below *)
Definition sandwich (ls : list layer) : Prop :=
  exists A ps B, ls = LDet A :: map LPass ps ++ [LDet B] /\ dl_pos A = "above" /\ dl_pos B = "below" /\ panels_inside A /\ panels_inside B.
