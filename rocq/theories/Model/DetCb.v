(* Model of callbacks that act on detector parameters: tomopt/optimisation/callbacks/detector_callbacks.py (PanelUpdateLimiter, PanelCentring)
   and grad_callbacks.py (NoMoreNaNs).
   A tensor of parameters is a storage in a memory; a parameter refers to one by its number.  In-place operations write the storage,
   "p.data = t" makes the parameter refer to the storage of t, and clone() and arithmetic make new storages. *)
From Verif Require Export Base.XR Base.RUtil Model.Scatter Model.Loss.
Open Scope R_scope.
Open Scope list_scope.

Definition mem := list (list xr).
Definition rd (m : mem) (a : nat) : list xr := nth a m [].
Definition alloc (m : mem) (t : list xr) : mem * nat := (m ++ [t], length m).
Fixpoint wr (m : mem) (a : nat) (t : list xr) : mem := match m, a with [], _ => [] | _ :: m, O => t :: m | x :: m, S a => x :: wr m a t end.

(* panel.py:91-93  the parameters xy, z, xy_span of a DetectorPanel *)
Record ppar := PPar { a_xy : nat; a_z : nat; a_span : nat }.
(* volume.get_detectors(): layers of panels, layers of heat maps (heatmap.py: no xy and no xy_span), other detector layers *)
Inductive dlay := DPanels (ps : list ppar) | DHeat | DOther.

(* ---------- PanelUpdateLimiter ---------- *)
(* detector_callbacks.py:92-101  on_backwards_end: copies of the parameters of every panel, in order *)
Definition record1 (m : mem) (p : ppar) : mem * ppar :=
  let (m, a) := alloc m (rd m (a_xy p)) in
  let (m, b) := alloc m (rd m (a_z p)) in
  let (m, c) := alloc m (rd m (a_span p)) in (m, PPar a b c).
Fixpoint record_panels (m : mem) (ps : list ppar) : mem * list ppar :=
  match ps with [] => (m, []) | p :: ps => let (m, q) := record1 m p in let (m, qs) := record_panels m ps in (m, q :: qs) end.
Fixpoint lim_backwards_end (m : mem) (ds : list dlay) : res (mem * list ppar) :=
  match ds with
  | [] => Ok (m, [])
  | DPanels ps :: ds => let (m, qs) := record_panels m ps in '(m, rs) <- lim_backwards_end m ds ;; Ok (m, qs ++ rs)
  | DHeat :: _ => Err AttributeError
  | DOther :: ds => lim_backwards_end m ds
  end.
Definition xabs (a : xr) : xr := match a with Fin x => Fin (Rabs x) | PInf | NInf => PInf | NaN => NaN end.
Definition xsign (a : xr) : xr := match a with Fin x => if Rltb 0 x then Fin 1 else if Rltb x 0 then Fin (-1) else Fin 0 | PInf => Fin 1 | NInf => Fin (-1) | NaN => NaN end.
(* 114-117  torch.where(delta.abs() > max_step, old + sign(delta) * max_step, new) *)
Definition limit1 (mx : R) (old new : xr) : xr :=
  let delta := xsub new old in if xlt (Fin mx) (xabs delta) then xadd old (xmul (xsign delta) (Fin mx)) else new.
Definition limit (mx : list R) (old new : list xr) : res (list xr) :=
  if Nat.eqb (length old) (length mx) && Nat.eqb (length new) (length mx) then Ok (map2 (fun b p => limit1 b (fst p) (snd p)) mx (combine old new))
  else Err RuntimeError.
Definition limit_par (mx : option (list R)) (m : mem) (old new : nat) : res (mem * nat) :=
  match mx with None => Ok (m, new) | Some mx => t <- limit mx (rd m old) (rd m new) ;; Ok (alloc m t) end.
(* 86-90  max_xy_step, max_z_step, max_xy_span_step *)
Record limits := Limits { l_xy : option (R * R); l_z : option R; l_span : option (R * R) }.
Definition pair_list (p : R * R) : list R := [fst p; snd p].
(* 103-133  on_step_end *)
Definition limit_panel (lm : limits) (m : mem) (old new : ppar) : res (mem * ppar) :=
  '(m, a) <- limit_par (option_map pair_list (l_xy lm)) m (a_xy old) (a_xy new) ;;
  '(m, b) <- limit_par (option_map (fun z => [z]) (l_z lm)) m (a_z old) (a_z new) ;;
  '(m, c) <- limit_par (option_map pair_list (l_span lm)) m (a_span old) (a_span new) ;;
  Ok (m, PPar a b c).
(* panel_idx counts along the recorded ones; self.panel_params[panel_idx] *)
Fixpoint limit_panels (lm : limits) (m : mem) (rec ps : list ppar) {struct ps} : res (mem * list ppar * list ppar) :=
  match ps with
  | [] => Ok (m, rec, [])
  | p :: ps =>
      match rec with
      | [] => Err IndexError
      | r :: rec => '(m, q) <- limit_panel lm m r p ;; '(m, rec, qs) <- limit_panels lm m rec ps ;; Ok (m, rec, q :: qs)
      end
  end.
Fixpoint lim_step_end (lm : limits) (m : mem) (rec : list ppar) (ds : list dlay) : res (mem * list dlay) :=
  match ds with
  | [] => Ok (m, [])
  | DPanels ps :: ds => '(m, rec, qs) <- limit_panels lm m rec ps ;; '(m, ds) <- lim_step_end lm m rec ds ;; Ok (m, DPanels qs :: ds)
  | DHeat :: _ => Err AttributeError
  | DOther :: ds => '(m, ds) <- lim_step_end lm m rec ds ;; Ok (m, DOther :: ds)
  end.

(* ---------- PanelCentring ---------- *)
(* np.mean(xy, 0) of the (panels, 2) array *)
Definition mean_rows (rows : list (list xr)) : list xr :=
  map (fun k => xmean (map (fun r => nth k r NaN) rows)) (seq 0 (length (hd [] rows))).
(* detector_callbacks.py:146-159  on_step_end: every panel's xy gets the same tensor *)
Fixpoint centre (m : mem) (ds : list dlay) : res (mem * list dlay) :=
  match ds with
  | [] => Ok (m, [])
  | DPanels ps :: ds =>
      let (m, a) := alloc m (mean_rows (map (fun p => rd m (a_xy p)) ps)) in
      '(m, ds) <- centre m ds ;; Ok (m, DPanels (map (fun p => PPar a (a_z p) (a_span p)) ps) :: ds)
  | DHeat :: _ => Err AttributeError
  | DOther :: _ => Err NotImplementedError
  end.
(* torch.optim: one parameter after the other, in place: p.add_(update) *)
Fixpoint opt_step (m : mem) (us : list (nat * list xr)) : mem :=
  match us with [] => m | (a, u) :: us => opt_step (wr m a (map2 xadd (rd m a) u)) us end.

(* ---------- NoMoreNaNs ---------- *)
(* .grad of the parameters; None when there is none *)
Definition grad := option (list xr).
Inductive glay := GPanels (ps : list (grad * grad * grad)) | GHeat (ps : list (grad * grad * grad * grad)) | GOther.
(* torch.nan_to_num_(grad, 0) *)
Definition clean (g : grad) : res grad := match g with Some t => Ok (Some (map nan_to_num t)) | None => Err TypeErr end.
(* grad_callbacks.py:27-42; budget: the weights' grad, if there are budget_weights *)
Definition clean_panel (p : grad * grad * grad) : res (grad * grad * grad) :=
  let '(xy, z, span) := p in xy <- clean xy ;; z <- clean z ;; span <- clean span ;; Ok (xy, z, span).
Definition clean_heat (p : grad * grad * grad * grad) : res (grad * grad * grad * grad) :=
  let '(mu, norm, sig, z) := p in mu <- clean mu ;; norm <- clean norm ;; sig <- clean sig ;; z <- clean z ;; Ok (mu, norm, sig, z).
Definition clean_layer (l : glay) : res glay :=
  match l with
  | GPanels ps => rmap GPanels (mapM clean_panel ps)
  | GHeat ps => rmap GHeat (mapM clean_heat ps)
  | GOther => Err NotImplementedError
  end.
Definition no_more_nans (budget : option grad) (ls : list glay) : res (option grad * list glay) :=
  budget <- (match budget with Some g => rmap Some (clean g) | None => Ok None end) ;;
  ls <- mapM clean_layer ls ;; Ok (budget, ls).
