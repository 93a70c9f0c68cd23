(* Words for what a saved state must give back (C109). *)
From Coq Require Import String Reals.
From Verif Require Export Model.StateDict.
Open Scope list_scope.

(* object c is what key k of V's state stands for *)
Definition place (V : det) (k : key) (c : nat) : Prop := In (k, c) (entries V).
(* two volumes built alike: the same layers with the same kinds of panels, both with or both without a budget *)
Inductive kind := KPanel | KSig | KHeat.
Definition kind_of (d : dev) : kind := match d with DPanel _ _ _ _ _ _ => KPanel | DSig _ _ _ _ _ _ _ => KSig | DHeat _ _ _ _ _ _ _ _ _ => KHeat end.
Definition build_of (V : det) : list (option (list kind)) := map (option_map (map kind_of)) (d_layers V).
Definition same_build (V V' : det) : Prop := build_of V = build_of V' /\ (d_weights V = None <-> d_weights V' = None).
(* every panel has its own objects *)
Definition dev_objects (d : dev) : list nat :=
  match d with
  | DPanel a b c d e f => [a; b; c; d; e; f]
  | DSig a b c d e f g => [a; b; c; d; e; f; g]
  | DHeat a b c d e f g h i => [a; b; c; d; e; f; g; h; i]
  end.
Definition devs (V : det) : list dev := flat_map (fun l => match l with Some ds => ds | None => [] end) (d_layers V).
Definition objects (V : det) : list nat := match d_weights V with Some c => [c] | None => [] end ++ flat_map dev_objects (devs V).
Definition unshared (V : det) : Prop := NoDup (objects V).
(* what an object of value old becomes when new is loaded into it *)
Definition becomes (old new t : tensor) : Prop :=
  (t_shape new = t_shape old /\ t = new) \/
  (t_shape old = [] /\ exists n x l, t_shape new = [n] /\ t_data new = x :: l /\ t = Ten [] [x]).
(* the file has something that can be loaded into object c at key k; t is what c then is *)
Definition loads (sd : sdict) (m : mem) (k : key) (c : nat) (t : tensor) : Prop := exists new, at_key k sd = Some new /\ becomes (m c) new t.

(* optimisers: the parameters of o in order; sizes of the groups *)
Definition sizes (o : optimiser) : list nat := map (fun g => length (g_params g)) o.
Definition its_settings (o : optimiser) : list settings := map g_set o.
(* o1 has the settings of o and for each parameter the state that the parameter at the same position of o has; its parameters are those of o' *)
Definition taken_over {St} (o o' o1 : optim St) : Prop :=
  its_settings (o_groups o1) = its_settings (o_groups o) /\ map g_params (o_groups o1) = map g_params (o_groups o') /\
  forall i c c', nth_error (ids (o_groups o)) i = Some c -> nth_error (ids (o_groups o')) i = Some c' -> o_state o1 c' = o_state o c.
(* two optimisers of one name; if the name has _opt in it, with groups of the same sizes and every parameter once *)
Definition fits_opt {St} (a b : string * optim St) : Prop :=
  fst a = fst b /\ (is_opt (fst a) = true -> sizes (o_groups (snd a)) = sizes (o_groups (snd b)) /\ NoDup (ids (o_groups (snd a))) /\ NoDup (ids (o_groups (snd b)))).
(* c is b after loading a: taken over if the name has _opt in it, else as it was *)
Definition loaded {St} (a b c : string * optim St) : Prop :=
  fst c = fst a /\ (if is_opt (fst a) then taken_over (snd a) (snd b) (snd c) else snd c = snd b).
Inductive all3 {St} : list (string * optim St) -> list (string * optim St) -> list (string * optim St) -> Prop :=
| a3_nil : all3 [] [] []
| a3_cons a b c l1 l2 l3 : loaded a b c -> all3 l1 l2 l3 -> all3 (a :: l1) (b :: l2) (c :: l3).
(* V', now with values m1, has the state that V has with values m; other objects are as in m' *)
Definition restored (V : det) (m : mem) (V' : det) (m' m1 : mem) : Prop :=
  (forall k c c', place V k c -> place V' k c' -> m1 c' = m c) /\ (forall c', (forall k, ~ place V' k c') -> m1 c' = m' c').
Definition same_shapes (V : det) (m : mem) (V' : det) (m' : mem) : Prop :=
  forall k c c', place V k c -> place V' k c' -> t_shape (m' c') = t_shape (m c).
(* the optimisers of w are those that were made as os: of the same names and parameters; settings and states are any *)
Definition made_as {St} (os : opts) (w : wrap St) : Prop :=
  Forall2 (fun a b => fst b = fst a /\ map g_params (o_groups (snd b)) = map g_params (snd a)) os (w_opts w).
