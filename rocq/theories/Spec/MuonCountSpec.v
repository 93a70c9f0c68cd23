(* How many muons a run sends through its volumes (C111). *)
From Coq Require Import List.
From Verif Require Import Model.Fit Spec.FitSpec.
Import ListNotations.

Definition muons {I P} (l : list (item I P)) : nat := list_sum (map (fun i => match i with Generated n => n | _ => 0%nat end) l).
(* nothing was predicted, and nothing follows from a prediction *)
Definition predicts_nothing {I P} (l : list (item I P)) : Prop :=
  forall i, In i l -> match i with Loss _ | Backward _ | Step => False | Predicted p => p = None | Mean m => m = None | Generated _ => False | _ => True end.
(* an inferrer that was given no muons predicts nothing, and callbacks give it none *)
Definition honest {W I P} (E : env W I P) (cbs : list nat) (unused : W -> Prop) : Prop :=
  (forall w w', e_inferrer E w = (Ok tt, w') -> unused w')
  /\ (forall k e f w f' w', In k cbs -> unused w -> e_cb E k e (f, w) = (Ok tt, (f', w')) -> unused w')
  /\ (forall w p w', unused w -> e_predict E w = (Ok p, w') -> p = None).
