(* Model of tomopt/optimisation/wrapper/volume_wrapper.py:268-292: AbsVolumeWrapper.save and load, for panel detectors.
   A state dict is kept with the structure of the module it comes from, rather than flattened to a dictionary; a missing or an
   unexpected key and a wrong length are a RuntimeError.  What a failed load has changed is not modelled.
   The state of an optimiser is any value: loading replaces it. *)
From Coq Require Import String.
From Verif Require Export Model.Volume.
Open Scope R_scope.
Open Scope string_scope.
Open Scope list_scope.

(* panel.py:88-93 and 449: the parameters xy, z, xy_span and the buffers m2_cost, resolution, efficiency, _smooth.
   budget_scale and realistic_validation are attributes (panel.py:87 and 94) and not part of the state dict *)
Record panel_state := PState { t_m2 : R; t_res : R; t_eff : R; t_x : R; t_y : R; t_z : R; t_sx : R; t_sy : R; t_smooth : option R }.
Definition panel_state_of (P : panel) : panel_state :=
  PState (pn_m2 P) (pn_res P) (pn_eff P) (pn_x P) (pn_y P) (pn_z P) (pn_sx P) (pn_sy P)
         (match pn_resp P with Sig s => Some s | Gauss => None end).
(* nn.Module.load_state_dict, strict *)
Definition load_panel (t : panel_state) (P : panel) : res panel :=
  resp <- match pn_resp P, t_smooth t with
          | Gauss, None => Ok Gauss
          | Sig _, Some s => Ok (Sig s)
          | _, _ => Err RuntimeError
          end ;;
  Ok (Panel resp (t_res t) (t_eff t) (t_x t) (t_y t) (t_z t) (t_sx t) (t_sy t) (t_m2 t) (pn_scale P) (pn_real P)).
Fixpoint load_all {A B} (f : A -> B -> res B) (ts : list A) (bs : list B) : res (list B) :=
  match ts, bs with
  | [], [] => Ok []
  | t :: ts, b :: bs => b <- f t b ;; bs <- load_all f ts bs ;; Ok (b :: bs)
  | _, _ => Err RuntimeError
  end.
(* a passive layer has no parameters and no buffers: None *)
Definition layer_state_of (l : layer) : option (list panel_state) :=
  match l with LPass _ => None | LDet D => Some (map panel_state_of (dl_panels D)) end.
Definition load_layer (t : option (list panel_state)) (l : layer) : res layer :=
  match t, l with
  | None, LPass L => Ok (LPass L)
  | Some ts, LDet D => ps <- load_all load_panel ts (dl_panels D) ;; Ok (LDet (with_panels D ps))
  | _, _ => Err RuntimeError
  end.
(* budget_weights is a parameter only if there is a budget (volume/volume.py:337); the budget itself is an attribute *)
Record volume_state := VState { t_layers : list (option (list panel_state)); t_weights : option (list R) }.
Definition volume_state_of (V : volume) : volume_state :=
  VState (map layer_state_of (v_layers V)) (match v_budget V with Some _ => Some (v_weights V) | None => None end).
Definition load_volume (t : volume_state) (V : volume) : res volume :=
  ls <- load_all load_layer (t_layers t) (v_layers V) ;;
  ws <- match v_budget V, t_weights t with
        | Some _, Some ws => if Nat.eqb (length ws) (length (v_weights V)) then Ok ws else Err RuntimeError
        | None, None => Ok (v_weights V)
        | _, _ => Err RuntimeError
        end ;;
  Ok (Volume ls (v_budget V) ws (v_target V)).

Section Wrapper.
Variable argsort : list R -> list nat.      (* np.argsort, for assign_budget *)
Context {O : Type}.                         (* the state of an optimiser *)
Record wrapper := Wrap { wr_vol : volume; wr_opts : list (string * O) }.
(* the saved dictionary: "volume", and an entry for each optimiser *)
Record saved := Saved { sv_volume : volume_state; sv_opts : list (string * O) }.
(* 268-276  save *)
Definition save (W : wrapper) : saved := Saved (volume_state_of (wr_vol W)) (wr_opts W).
Fixpoint set_opt (k : string) (o : O) (d : list (string * O)) : res (list (string * O)) :=
  match d with
  | [] => Err KeyError
  | (k', o') :: d => if String.eqb k' k then Ok ((k', o) :: d) else (d <- set_opt k o d ;; Ok ((k', o') :: d))
  end.
(* "_opt" in k *)
Definition is_opt (k : string) : bool := match String.index 0 "_opt" k with Some _ => true | None => false end.
Definition keys (s : saved) : list string := "volume" :: map fst (sv_opts s).
(* 278-292  load; the name volume does not contain _opt *)
Definition load (s : saved) (W : wrapper) : res wrapper :=
  V <- load_volume (sv_volume s) (wr_vol W) ;;
  V <- (if existsb (String.eqb "budget_weights") (keys s) then assign_budget argsort V else Ok V) ;;
  opts <- foldM (fun d ko => if is_opt (fst ko) then set_opt (fst ko) (snd ko) d else Ok d) (sv_opts s) (wr_opts W) ;;
  Ok (Wrap V opts).
End Wrapper.
