(* What may happen to a volume between saving and loading (C24). *)
From Coq Require Import String.
From Verif Require Import Model.Volume.
Open Scope R_scope.
Open Scope list_scope.

Definition same_kind (a b : response) : Prop := match a, b with Gauss, Gauss | Sig _, Sig _ => True | _, _ => False end.
(* the parameters of a panel are given any values, and so is the smoothness of its response *)
Definition tuned_panel (P P' : panel) : Prop :=
  exists resp res eff x y z sx sy m2, same_kind (pn_resp P) resp /\
    P' = Panel resp res eff x y z sx sy m2 (pn_scale P) (pn_real P).
Definition tuned_layer (l l' : layer) : Prop :=
  match l, l' with
  | LPass _, LPass _ => True
  | LDet D, LDet D' => exists ps, D' = with_panels D ps /\ Forall2 tuned_panel (dl_panels D) ps
  | _, _ => False
  end.
(* any number of changes of the parameters, the budget weights, the passive layers and the target, and of assignments of the budget
   (which is what every crossing of the volume begins with) *)
Inductive history (argsort : list R -> list nat) (V : volume) : volume -> Prop :=
  | h_nothing : history argsort V V
  | h_tune V1 ls ws t : history argsort V V1 -> Forall2 tuned_layer (v_layers V1) ls -> length ws = length (v_weights V1) ->
      history argsort V (Volume ls (v_budget V1) ws t)
  | h_assign V1 V2 : history argsort V V1 -> assign_budget argsort V1 = Ok V2 -> history argsort V V2.
(* the volume has just been given its budget *)
Definition up_to_date (argsort : list R -> list nat) (V : volume) : Prop := assign_budget argsort V = Ok V.
