(* What C45 and C54 are stated with. *)
From Verif Require Import Base.RUtil Model.PredCb.
Open Scope list_scope.

(* an operation that does not change the target *)
Definition keeps {W T A : Type} (target : W -> res T) (g : W -> res A * W) : Prop := forall w a w', g w = (Ok a, w') -> target w' = target w.

(* the file that has exactly these pairs, row by row; no datasets without any pair *)
Definition rows {A B : Type} (l : list (A * B)) : h5 A B :=
  match l with [] => H5 None None | _ => H5 (Some (map (fun q => Some (fst q)) l)) (Some (map (fun q => Some (snd q)) l)) end.

(* the pairs of all runs since the last one that overwrites *)
Fixpoint kept_pairs {A B : Type} (rs : list (bool * list (A * B))) (acc : list (A * B)) : list (A * B) :=
  match rs with [] => acc | (o, l) :: rs => kept_pairs rs ((if o then [] else acc) ++ l) end.
