(* Model of tomopt/optimisation/wrapper/volume_wrapper.py: how a wrapper makes its optimisers (_build_opt 834-853, 1052-1070, 1252-1253; ArbVolumeWrapper
   1196-1214), get_param_count 294-305, get/set_opt_lr and get/set_opt_mom 428-480, and what the optimisers do at a step (581-583).
   Parameters are objects: they have an identity.  Of torch.optim.Optimizer (torch 2.2.0): an empty list of parameters is a ValueError; the parameters are
   one group, with the settings of the partial optimiser; a parameter that occurs twice in the list gives a warning only, and is updated twice.
   An update of a parameter depends on that parameter only (its value, gradient and optimiser state), as in SGD, Adam and the like. *)
From Coq Require Import String Reals.
From Verif Require Export Base.Res.
Open Scope string_scope.
Open Scope list_scope.

(* nn.Parameter: identity, number of elements, requires_grad *)
Record param := Param { p_id : nat; p_numel : nat; p_grad : bool }.
(* the parameters of a DetectorPanel (panel.py:91-93) and of a DetectorHeatMap (heatmap.py:50-53; mu, sig and norm are those of its GMM, 225-229) *)
Inductive pan := Rect (xy z xy_span : param) | Heat (mu sig norm z : param).
(* layers: passive layers and panel layers have no parameters of their own (layer.py); another AbsDetectorLayer can have some *)
Inductive lay := Passive | Panels (ps : list pan) | Other (own : list param).
(* volume.py:337  budget_weights exists only if there is a budget *)
Record vol := Vol { vo_layers : list lay; vo_budget : option param }.

(* nn.Module.parameters: those of the module itself first, then those of its parts in order; every object once *)
Definition pan_params (p : pan) : list param :=
  match p with Rect xy z span => [xy; z; span] | Heat mu sig norm z => [mu; sig; norm; z] ++ [mu; sig; norm] end.
Definition lay_params (l : lay) : list param :=
  match l with Passive => [] | Panels ps => flat_map pan_params ps | Other own => own end.
Fixpoint once (seen : list nat) (l : list param) : list param :=
  match l with
  | [] => []
  | p :: l => if existsb (Nat.eqb (p_id p)) seen then once seen l else p :: once (p_id p :: seen) l
  end.
Definition parameters (V : vol) : list param :=
  once [] (match vo_budget V with Some b => [b] | None => [] end ++ flat_map lay_params (vo_layers V)).
(* 294-305  get_param_count *)
Definition get_param_count (trainable : bool) (V : vol) : nat :=
  fold_right (fun p n => p_numel p + n) 0 (filter (fun p => p_grad p || negb trainable) (parameters V)).

(* a setting of a group of parameters: a number, or the pair betas *)
Inductive setting := Num (r : R) | Pair (r1 r2 : R).
Definition settings := list (string * setting).
Record group := Group { g_params : list param; g_set : settings }.
Definition optimiser := list group.
(* a partial optimiser: its settings *)
Definition make_opt (d : settings) (ps : list param) : res optimiser :=
  match ps with [] => Err ValueError | _ => Ok [Group ps d] end.

(* attributes of panels *)
Definition get_xy (p : pan) : res param := match p with Rect xy _ _ => Ok xy | Heat _ _ _ _ => Err AttributeError end.
Definition get_z (p : pan) : res param := match p with Rect _ z _ => Ok z | Heat _ _ _ z => Ok z end.
Definition get_span (p : pan) : res param := match p with Rect _ _ s => Ok s | Heat _ _ _ _ => Err AttributeError end.
Definition get_mu (p : pan) : res param := match p with Heat mu _ _ _ => Ok mu | Rect _ _ _ => Err AttributeError end.
Definition get_norm (p : pan) : res param := match p with Heat _ _ norm _ => Ok norm | Rect _ _ _ => Err AttributeError end.
Definition get_sig (p : pan) : res param := match p with Heat _ sig _ _ => Ok sig | Rect _ _ _ => Err AttributeError end.
(* 842-846, 1060-1064: the detectors that are PanelDetectorLayers, and (p for l in dets for p in l.panels) *)
Definition panels_of (V : vol) : list pan := flat_map (fun l => match l with Panels ps => ps | _ => [] end) (vo_layers V).
Definition opt_of (get : pan -> res param) (d : settings) (V : vol) : res optimiser :=
  ps <- mapM get (panels_of V) ;; make_opt d ps.

Definition opts := list (string * optimiser).
(* 834-853  PanelVolumeWrapper._build_opt *)
Definition build_panel (xy_pos z_pos xy_span : settings) (budget : option settings) (V : vol) : res opts :=
  o1 <- opt_of get_xy xy_pos V ;;
  o2 <- opt_of get_z z_pos V ;;
  o3 <- opt_of get_span xy_span V ;;
  let os := [("xy_pos_opt", o1); ("z_pos_opt", o2); ("xy_span_opt", o3)] in
  match budget with
  | None => Ok os
  | Some d =>
      match vo_budget V with
      | None => Err AttributeError
      | Some b => o4 <- make_opt d [b] ;; Ok (os ++ [("budget_opt", o4)])
      end
  end.
(* 1052-1070  HeatMapVolumeWrapper._build_opt *)
Definition build_heat (mu norm sig z_pos : settings) (V : vol) : res opts :=
  o1 <- opt_of get_mu mu V ;;
  o2 <- opt_of get_norm norm V ;;
  o3 <- opt_of get_sig sig V ;;
  o4 <- opt_of get_z z_pos V ;;
  Ok [("mu_opt", o1); ("norm_opt", o2); ("sig_opt", o3); ("z_pos_opt", o4)].
(* 1196-1214, 1252-1253  ArbVolumeWrapper: the optimisers are given *)
Definition build_arb (os : opts) (V : vol) : res opts := Ok os.

(* dictionaries *)
Fixpoint dget {A} (k : string) (d : list (string * A)) : res A :=
  match d with [] => Err KeyError | (k', a) :: d => if String.eqb k' k then Ok a else dget k d end.
Fixpoint dset {A} (k : string) (a : A) (d : list (string * A)) : list (string * A) :=
  match d with [] => [(k, a)] | (k', b) :: d => if String.eqb k' k then (k', a) :: d else (k', b) :: dset k a d end.
Definition dhas {A} (k : string) (d : list (string * A)) : bool := existsb (fun e => String.eqb (fst e) k) d.
(* self.opts[opt].param_groups[0] *)
Definition group0 (os : opts) (opt : string) : res group :=
  o <- dget opt os ;; match o with [] => Err IndexError | g :: _ => Ok g end.
Definition set_group0 (os : opts) (opt : string) (g : group) : res opts :=
  o <- dget opt os ;; match o with [] => Err IndexError | _ :: gs => Ok (dset opt (g :: gs) os) end.
(* 428-438  get_opt_lr, 441-450  set_opt_lr *)
Definition get_opt_lr (os : opts) (opt : string) : res setting := g <- group0 os opt ;; dget "lr" (g_set g).
Definition set_opt_lr (lr : R) (opt : string) (os : opts) : res opts :=
  g <- group0 os opt ;; set_group0 os opt (Group (g_params g) (dset "lr" (Num lr) (g_set g))).
(* 452-466  get_opt_mom *)
Definition get_opt_mom (os : opts) (opt : string) : res setting :=
  g <- group0 os opt ;;
  if dhas "betas" (g_set g) then
    b <- dget "betas" (g_set g) ;; match b with Pair b1 _ => Ok (Num b1) | Num _ => Err TypeErr end
  else dget "momentum" (g_set g).
(* 468-480  set_opt_mom *)
Definition set_opt_mom (mom : R) (opt : string) (os : opts) : res opts :=
  g <- group0 os opt ;;
  if dhas "betas" (g_set g) then
    b <- dget "betas" (g_set g) ;;
    match b with
    | Pair _ b2 => set_group0 os opt (Group (g_params g) (dset "betas" (Pair mom b2) (g_set g)))
    | Num _ => Err TypeErr
    end
  else set_group0 os opt (Group (g_params g) (dset "momentum" (Num mom) (g_set g))).

(* ---- a step.  W: the values of parameters; rule d p w: the value of p after an update with settings d ---- *)
Section Step.
Context {W : Type}.
Variable rule : settings -> param -> W -> W.
Definition upd (m : nat -> W) (i : nat) (w : W) : nat -> W := fun j => if Nat.eqb j i then w else m j.
Definition step_group (g : group) (m : nat -> W) : nat -> W :=
  fold_left (fun m p => upd m (p_id p) (rule (g_set g) p (m (p_id p)))) (g_params g) m.
Definition step_opt (o : optimiser) (m : nat -> W) : nat -> W := fold_left (fun m g => step_group g m) o m.
(* 582-583  for o in self.opts.values(): o.step() *)
Definition step_all (os : opts) (m : nat -> W) : nat -> W := fold_left (fun m no => step_opt (snd no) m) os m.
End Step.
