(* What the optimisers of a wrapper must own. *)
From Verif Require Export Model.Build.
Open Scope list_scope.

(* the parameters of a panel *)
Definition of_panel (p : pan) : list param :=
  match p with Rect xy z span => [xy; z; span] | Heat mu sig norm z => [mu; sig; norm; z] end.
(* p is a panel of a panel layer of V *)
Definition panel_in (p : pan) (V : vol) : Prop := exists ps, In (Panels ps) (vo_layers V) /\ In p ps.
Definition rect (p : pan) : Prop := match p with Rect _ _ _ => True | _ => False end.
Definition heat (p : pan) : Prop := match p with Heat _ _ _ _ => True | _ => False end.
(* every parameter object has one place in the volume *)
Definition objects (V : vol) : list param :=
  match vo_budget V with Some b => [b] | None => [] end ++
  flat_map (fun l => match l with Passive => [] | Panels ps => flat_map of_panel ps | Other own => own end) (vo_layers V).
Definition separate (V : vol) : Prop := NoDup (map p_id (objects V)).
(* the parameters of an optimiser; of all of them *)
Definition owns (o : optimiser) : list param := flat_map g_params o.
Definition owned (os : opts) : list param := flat_map (fun no => owns (snd no)) os.
(* the optimiser with a name owns exactly q's and has one group with settings d *)
Definition opt_is (os : opts) (name : string) (d : settings) (q : param -> Prop) : Prop :=
  exists ps, In (name, [Group ps d]) os /\ forall p, In p ps <-> q p.
