(* Model of saving and loading at the level of tensor objects: tomopt/optimisation/wrapper/volume_wrapper.py:268-292 (save, load) and the three from_save
   (789-832, 1007-1050, 1216-1250), with torch's Module.state_dict / load_state_dict (strict) and Optimizer.state_dict / load_state_dict (torch 2.2.0).
   Model/SaveLoad.v has the values of a panel detector only; here are the objects that hold them, which can be shared, the shapes, the keys, heat maps, what
   a load that raises has done, the optimisers with their groups, and optimisers of any names.
   A key of a state dict is the list of its parts (the parts have no dots).  Devices and dtypes are left out. *)
From Coq Require Import String Reals.
From Verif Require Export Model.Build.
Open Scope string_scope.
Open Scope list_scope.

(* the tensor objects are numbered; m c is the value of object c: its shape and its elements *)
Record tensor := Ten { t_shape : list nat; t_data : list R }.
Definition mem := nat -> tensor.
Definition put (m : mem) (c : nat) (t : tensor) : mem := fun d => if Nat.eqb d c then t else m d.
Inductive part := Nm (s : string) | Ix (i : nat).
Definition key := list part.
Definition part_eqb (a b : part) : bool :=
  match a, b with Nm s, Nm t => String.eqb s t | Ix i, Ix j => Nat.eqb i j | _, _ => false end.
Fixpoint key_eqb (a b : key) : bool :=
  match a, b with [], [] => true | x :: a, y :: b => part_eqb x y && key_eqb a b | _, _ => false end.
Fixpoint at_key {A} (k : key) (d : list (key * A)) : option A :=
  match d with [] => None | (k', a) :: d => if key_eqb k k' then Some a else at_key k d end.
Definition shape_eqb (a b : list nat) : bool := if list_eq_dec Nat.eq_dec a b then true else false.

(* The objects of a DetectorPanel (panel.py:88-93), a SigmoidDetectorPanel (also 441-449) and a DetectorHeatMap (heatmap.py:38-53, 225-229; its mu, sig and
   norm are those of its GMM).  Not among them, and so not saved: budget_scale, realistic_validation, and delta_xy and range_mult of heat maps (heatmap.py:47, 54) *)
Inductive dev :=
| DPanel (xy z xy_span m2_cost resolution efficiency : nat)
| DSig (xy z xy_span m2_cost resolution efficiency smooth : nat)
| DHeat (mu sig norm z m2_cost resolution efficiency xy_fix xy_span_fix : nat).
(* what a module has, in the order of state_dict: parameters, buffers, then the modules in it *)
Definition dev_entries (d : dev) : list (key * nat) :=
  match d with
  | DPanel xy z sp m2 re ef => [([Nm "xy"], xy); ([Nm "z"], z); ([Nm "xy_span"], sp); ([Nm "m2_cost"], m2); ([Nm "resolution"], re); ([Nm "efficiency"], ef)]
  | DSig xy z sp m2 re ef sm =>
      [([Nm "xy"], xy); ([Nm "z"], z); ([Nm "xy_span"], sp); ([Nm "m2_cost"], m2); ([Nm "resolution"], re); ([Nm "efficiency"], ef); ([Nm "_smooth"], sm)]
  | DHeat mu sg no z m2 re ef fx sp =>
      [([Nm "mu"], mu); ([Nm "sig"], sg); ([Nm "norm"], no); ([Nm "z"], z); ([Nm "m2_cost"], m2); ([Nm "resolution"], re); ([Nm "efficiency"], ef);
       ([Nm "xy_fix"], fx); ([Nm "xy_span_fix"], sp); ([Nm "gmm"; Nm "mu"], mu); ([Nm "gmm"; Nm "sig"], sg); ([Nm "gmm"; Nm "norm"], no)]
  end.
(* volume.py, layer.py:494-497: layers with panels, and passive layers, which have neither parameters nor buffers (None); budget_weights (volume.py:337) if there is a budget *)
Record det := Detr { d_layers : list (option (list dev)); d_weights : option nat }.
Definition under (p : key) (l : list (key * nat)) : list (key * nat) := map (fun kc => (p ++ fst kc, snd kc)) l.
Fixpoint panel_entries (i j : nat) (ds : list dev) : list (key * nat) :=
  match ds with [] => [] | d :: ds => under [Nm "layers"; Ix i; Nm "panels"; Ix j] (dev_entries d) ++ panel_entries i (S j) ds end.
Fixpoint layer_entries (i : nat) (ls : list (option (list dev))) : list (key * nat) :=
  match ls with
  | [] => []
  | l :: ls => match l with Some ds => panel_entries i 0 ds | None => [] end ++ layer_entries (S i) ls
  end.
Definition entries (V : det) : list (key * nat) :=
  match d_weights V with Some c => [([Nm "budget_weights"], c)] | None => [] end ++ layer_entries 0 (d_layers V).

(* Module.state_dict *)
Definition sdict := list (key * tensor).
Definition state_dict (V : det) (m : mem) : sdict := map (fun kc => (fst kc, m (snd kc))) (entries V).
(* Module._load_from_state_dict for one entry: a tensor of one axis is taken as a number where a number is wanted (its first element); anything else must have
   the shape.  None: size mismatch.  (A vector without elements for a number, at which torch raises IndexError at once, is a size mismatch here.) *)
Definition fit_to (old new : tensor) : option tensor :=
  match t_shape old, t_shape new, t_data new with
  | [], [_], x :: _ => Some (Ten [] [x])
  | so, sn, _ => if shape_eqb so sn then Some new else None
  end.
(* entry by entry, all that fits is written, into the object that is there; the flag says whether there was an error (a missing key or a size mismatch) *)
Fixpoint load_entries (sd : sdict) (es : list (key * nat)) (m : mem) : bool * mem :=
  match es with
  | [] => (true, m)
  | (k, c) :: es =>
      match at_key k sd with
      | None => let '(_, m) := load_entries sd es m in (false, m)
      | Some t =>
          match fit_to (m c) t with
          | None => let '(_, m) := load_entries sd es m in (false, m)
          | Some t => load_entries sd es (put m c t)
          end
      end
  end.
(* Module.load_state_dict: unexpected keys are an error too; it raises at the end *)
Definition unexpected (sd : sdict) (es : list (key * nat)) : bool :=
  existsb (fun kt => match at_key (fst kt) es with None => true | Some _ => false end) sd.
Definition load_state_dict (sd : sdict) (V : det) (m : mem) : res unit * mem :=
  let '(ok, m) := load_entries sd (entries V) m in
  (if ok && negb (unexpected sd (entries V)) then Ok tt else Err RuntimeError, m).

(* SigmoidDetectorPanel.smooth = t (panel.py:441-449) for every such panel, as in detector_callbacks.py:49-61 _set_smooth: all get the same object c *)
Definition smooth_dev (c : nat) (d : dev) : dev :=
  match d with DSig xy z sp m2 re ef _ => DSig xy z sp m2 re ef c | d => d end.
Definition set_smooth (c : nat) (V : det) : det := Detr (map (option_map (map (smooth_dev c))) (d_layers V)) (d_weights V).
(* detector_callbacks.py:41-47 on_train_begin: a new object of shape (1,); 63-71 on_epoch_begin: an element of a vector, of shape () *)
Definition schedule_begins (c : nat) (s : R) (V : det) (m : mem) : det * mem := (set_smooth c V, put m c (Ten [1] [s])).
Definition schedule_epoch (c : nat) (s : R) (V : det) (m : mem) : det * mem := (set_smooth c V, put m c (Ten [] [s])).

(* ---- optimisers: torch.optim.Optimizer.state_dict and load_state_dict ---- *)
Section Optimisers.
Context {St : Type}.                   (* what an optimiser keeps for a parameter, such as its momentum *)
(* the groups of parameters with their settings, and the state of each parameter *)
Record optim := Optim { o_groups : optimiser; o_state : nat -> option St }.
Definition ids (o : optimiser) : list nat := map p_id (flat_map g_params o).
Fixpoint index_of (c : nat) (l : list nat) : option nat :=
  match l with [] => None | d :: l => if Nat.eqb d c then Some 0 else option_map S (index_of c l) end.
(* Optimizer.state_dict: parameters are numbered in their order (a parameter that occurs again has its first number) *)
Record odict := Odict { z_groups : list (settings * list nat); z_state : nat -> option St }.
Definition opt_dict (o : optim) : odict :=
  let all := ids (o_groups o) in
  Odict (map (fun g => (g_set g, map (fun p => match index_of (p_id p) all with Some i => i | None => 0 end) (g_params g))) (o_groups o))
        (fun i => match nth_error all i with
                  | Some c => match index_of c all with Some j => if Nat.eqb i j then o_state o c else None | None => None end
                  | None => None
                  end).
(* Optimizer.load_state_dict: the same numbers of groups and of parameters in each, else ValueError, before anything is changed; then all settings are replaced by those
   of the file, and the state too, the i-th parameter of the file being the i-th here.  (A parameter that is here twice: its first number.) *)
Fixpoint same_sizes (zs : list (settings * list nat)) (gs : optimiser) : bool :=
  match zs, gs with
  | [], [] => true
  | z :: zs, g :: gs => Nat.eqb (length (snd z)) (length (g_params g)) && same_sizes zs gs
  | _, _ => false
  end.
Fixpoint regroup (zs : list (settings * list nat)) (gs : optimiser) : optimiser :=
  match zs, gs with z :: zs, g :: gs => Group (g_params g) (fst z) :: regroup zs gs | _, _ => [] end.
Definition load_opt (z : odict) (o : optim) : res optim :=
  if same_sizes (z_groups z) (o_groups o) then
    Ok (Optim (regroup (z_groups z) (o_groups o))
          (fun c => match index_of c (ids (o_groups o)) with
                    | Some i => match nth_error (flat_map snd (z_groups z)) i with Some j => z_state z j | None => None end
                    | None => None
                    end))
  else Err ValueError.

(* ---- wrappers: tomopt/optimisation/wrapper/volume_wrapper.py ---- *)
Record wrap := Wrapr { w_det : det; w_opts : list (string * optim) }.
Inductive item := IVol (sd : sdict) | IOpt (z : odict).
Definition file := list (string * item).
(* 276  {"volume": ..., **{k: v.state_dict() for k, v in self.opts.items()}} *)
Definition save (w : wrap) (m : mem) : file :=
  fold_left (fun f ko => dset (fst ko) (IOpt (opt_dict (snd ko))) f) (w_opts w) [("volume", IVol (state_dict (w_det w) m))].
(* "_opt" in k *)
Definition is_opt (k : string) : bool := match String.index 0 "_opt" k with Some _ => true | None => false end.
(* 290-292  the optimisers, in the order of the file; what was loaded before an exception stays *)
Fixpoint load_opts (f : file) (os : list (string * optim)) : res unit * list (string * optim) :=
  match f with
  | [] => (Ok tt, os)
  | (k, v) :: f =>
      if is_opt k then
        match dget k os, v with
        | Ok o, IOpt z => match load_opt z o with Ok o => load_opts f (dset k o os) | Err e => (Err e, os) end
        | Ok o, IVol _ => (Err KeyError, os)
        | Err e, _ => (Err e, os)
        end
      else load_opts f os
  end.
(* 278-292  load.  assign: volume.assign_budget(), which 288-289 calls if the file has an entry "budget_weights".
   A "volume" entry that is the state of an optimiser has the keys state and param_groups, which no volume has: nothing is written *)
Variable assign : det -> mem -> res unit * mem.
Definition load (f : file) (w : wrap) (m : mem) : res unit * (wrap * mem) :=
  match dget "volume" f with
  | Err e => (Err e, (w, m))
  | Ok (IOpt _) => (Err RuntimeError, (w, m))
  | Ok (IVol sd) =>
      match load_state_dict sd (w_det w) m with
      | (Err e, m) => (Err e, (w, m))
      | (Ok _, m) =>
          match (if dhas "budget_weights" f then assign (w_det w) m else (Ok tt, m)) with
          | (Err e, m) => (Err e, (w, m))
          | (Ok _, m) => let '(r, os) := load_opts f (w_opts w) in (r, (Wrapr (w_det w) os, m))
          end
      end
  end.

(* the parameters of a volume, as in Model/Build.v *)
Definition numel (m : mem) (c : nat) : nat := fold_right Nat.mul 1 (t_shape (m c)).
Definition par (m : mem) (c : nat) : param := Param c (numel m c) true.
Definition pan_of (m : mem) (d : dev) : pan :=
  match d with
  | DPanel xy z sp _ _ _ | DSig xy z sp _ _ _ _ => Rect (par m xy) (par m z) (par m sp)
  | DHeat mu sg no z _ _ _ _ _ => Heat (par m mu) (par m sg) (par m no) (par m z)
  end.
Definition vol_of (V : det) (m : mem) : vol :=
  Vol (map (fun l => match l with Some ds => Panels (map (pan_of m) ds) | None => Passive end) (d_layers V)) (option_map (par m) (d_weights V)).
(* a new optimiser has no state *)
Definition new_opts (os : opts) : list (string * optim) := map (fun ko => (fst ko, Optim (snd ko) (fun _ => None))) os.
Definition made (r : res opts) (V : det) : res wrap := os <- r ;; Ok (Wrapr V (new_opts os)).
(* vw = cls(...); vw.load(name); return vw *)
Definition then_load (r : res wrap) (f : file) (m : mem) : res wrap * mem :=
  match r with
  | Err e => (Err e, m)
  | Ok w => match load f w m with (Ok _, (w, m)) => (Ok w, m) | (Err e, (_, m)) => (Err e, m) end
  end.
(* 789-832  PanelVolumeWrapper.from_save *)
Definition from_save_panel (f : file) (xy z span : settings) (budget : option settings) (V : det) (m : mem) : res wrap * mem :=
  then_load (made (build_panel xy z span budget (vol_of V m)) V) f m.
(* 1007-1050  HeatMapVolumeWrapper.from_save *)
Definition from_save_heat (f : file) (mu norm sig z : settings) (V : det) (m : mem) : res wrap * mem :=
  then_load (made (build_heat mu norm sig z (vol_of V m)) V) f m.
(* 1216-1250  ArbVolumeWrapper.from_save: the optimisers are given, and are themselves changed *)
Definition from_save_arb (f : file) (os : list (string * optim)) (V : det) (m : mem) : res wrap * mem :=
  then_load (Ok (Wrapr V os)) f m.
End Optimisers.
Arguments optim : clear implicits. Arguments odict : clear implicits. Arguments wrap : clear implicits. Arguments item : clear implicits. Arguments file : clear implicits.
