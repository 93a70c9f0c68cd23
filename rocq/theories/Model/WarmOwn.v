(* Model of tomopt/optimisation/callbacks/warmup_callbacks.py: CostCoefWarmup and OptConfig, the warm-up callbacks that come with the package.
   Printing is not modelled.  Numbers that the fit produces on its way (inference errors, gradients) are given. *)
From Coq Require Import String.
From Verif Require Export Model.Warmup Base.XR.
Open Scope list_scope.

(* numpy.median: NaN if there is one, or of nothing; otherwise the middle of the sorted numbers, or the mean of the two in the middle *)
Fixpoint insert_x (x : xr) (l : list xr) : list xr := match l with [] => [x] | y :: m => if xle x y then x :: l else y :: insert_x x m end.
Definition sort_x (l : list xr) : list xr := fold_right insert_x [] l.
Definition np_median (l : list xr) : xr :=
  let n := length l in let s := sort_x l in
  if existsb xisnan l || Nat.eqb n 0 then NaN
  else if Nat.odd n then nth (n / 2) s NaN
  else xdiv (xadd (nth (n / 2 - 1) s NaN) (nth (n / 2) s NaN)) (Fin 2).
(* numpy.nanmedian: without the NaN entries *)
Definition np_nanmedian (l : list xr) : xr := np_median (filter (fun x => negb (xisnan x)) l).

(* The own code of a warm-up callback: the event; the callback before and after the method of the base class (warmup_active, epoch_cnt); whether
   fit_params.state is "train"; its other attributes and what it acts on *)
Definition own_warm (O : Type) : Type := event -> slot -> slot -> bool -> O -> res O.
(* The warm-ups, and the own code of the one at place q, along the trace of a fit (Model/Fit.v); feed: what else happens to O in the fit *)
Definition warm_step {I P O} (q : nat) (feed : item I P -> O -> O) (own : own_warm O) (i : item I P) (s : view (list slot) * O) : res (view (list slot) * O) :=
  let '(v, o) := s in
  match i with
  | SetTrain => Ok (View (Some Train) (S (vw_epoch v)) (vw_skip v) (vw_n_epochs v) (vw_bs v) (vw_st v), feed i o)
  | SetEval => Ok (View (Some Valid) (vw_epoch v) (vw_skip v) (vw_n_epochs v) (vw_bs v) (vw_st v), feed i o)
  | Call k e =>
      '(b, l) <- warm_cb k e v ;;
      let v' := View (vw_mode v) (vw_epoch v) b (vw_n_epochs v) (vw_bs v) l in
      if Nat.eqb k q then
        match nth_error (vw_st v) q, nth_error l q with
        | Some s, Some s' => o' <- own e s s' (in_train v) o ;; Ok (v', o')
        | _, _ => Ok (v', o)
        end
      else Ok (v', o)
  | _ => Ok (v, feed i o)
  end.
Definition warm_run {I P O} q feed own (l : list (item I P)) (s : view (list slot) * O) : res (view (list slot) * O) :=
  foldM (fun s i => warm_step q feed own i s) l s.
(* warmup_active; epoch_cnt >= n_warmup *)
Definition is_active (s : slot) : bool := match s with SWarm _ _ b => b | _ => false end.
Definition is_over (s : slot) : bool := match s with SWarm n c _ => Nat.leb n c | _ => false end.

(* ---- 86-122  CostCoefWarmup.  There is a loss function ---- *)
(* errors; loss_func.cost_coef; loss_func.sub_losses["error"]; whether fit_params.pred is there; the errors of the coming evaluations *)
Record cost := Cost { k_errors : list xr; k_coef : option xr; k_error : option xr; k_pred : bool; k_next : list xr }.
(* volume_wrapper.py:599 clears pred, 620 sets it; loss.py:93-94 sets the error, 145-146 and 131 the coefficient if it is None *)
Definition cost_feed {I P} (i : item I P) (o : cost) : cost :=
  match i with
  | NewInferrer => Cost (k_errors o) (k_coef o) (k_error o) false (k_next o)
  | Predicted p => Cost (k_errors o) (k_coef o) (k_error o) (match p with Some _ => true | None => false end) (k_next o)
  | Loss _ =>
      match k_next o with
      | e :: next => Cost (k_errors o) (match k_coef o with Some x => Some x | None => Some e end) (Some e) (k_pred o) next
      | [] => o
      end
  | _ => o
  end.
(* _reset 96-98 (on_train_begin 33-39), on_volume_end 100-108, on_epoch_end 110-122 *)
Definition cost_own : own_warm cost := fun e s s' train o =>
  match e with
  | TrainBegin => Ok (Cost [] (k_coef o) (k_error o) (k_pred o) (k_next o))
  | VolumeEnd =>
      if is_active s && train && k_pred o then
        match k_error o with
        | Some x => Ok (Cost (k_errors o ++ [x]) (k_coef o) (k_error o) (k_pred o) (k_next o))
        | None => Err KeyError
        end
      else Ok o
  | EpochEnd =>
      if is_active s && train && is_over s' then Ok (Cost (k_errors o) (Some (np_median (k_errors o))) (k_error o) (k_pred o) (k_next o)) else Ok o
  | _ => Ok o
  end.

(* ---- 125-190  OptConfig ---- *)
(* dictionaries *)
Fixpoint lookup {A} (k : string) (d : list (string * A)) : option A :=
  match d with [] => None | (k', a) :: d => if String.eqb k k' then Some a else lookup k d end.
Fixpoint update_at {A} (k : string) (a : A) (d : list (string * A)) : list (string * A) :=
  match d with [] => [] | (k', b) :: d => if String.eqb k k' then (k', a) :: d else (k', b) :: update_at k a d end.
Definition get {A} (k : string) (d : list (string * A)) : res A := match lookup k d with Some a => Ok a | None => Err KeyError end.
(* one entry for each optimiser of the wrapper: the gradients (flattened; None: no gradient) of the parameters in its first group, which have the same shape
   (numpy.nanmedian of arrays of different shapes is not modelled) *)
Definition grads : Type := list (string * list (option (list xr))).
(* stats; the learning rates of the optimisers; the gradients as they are, and as this callback will find them after the coming back-propagations *)
Record optc := Optc { p_stats : list (string * list xr); p_lr : list (string * xr); p_grads : grads; p_next : list grads }.
Definition opt_feed {I P} (i : item I P) (o : optc) : optc :=
  match i with
  | ZeroGrad => match p_next o with g :: next => Optc (p_stats o) (p_lr o) g next | [] => o end
  | _ => o
  end.
(* param.grad.abs() *)
Definition abs_grad (g : option (list xr)) : res (list xr) := match g with Some l => Ok (map xabs l) | None => Err AttributeError end.
(* 163-165: the new stats, for the keys of rates *)
Definition watch (g : grads) (stats : list (string * list xr)) (k : string) : res (list (string * list xr)) :=
  ps <- get k g ;;
  xs <- mapM abs_grad ps ;;
  old <- get k stats ;;
  Ok (update_at k (old ++ concat xs) stats).
(* 180-185 with volume_wrapper.py:450  set_opt_lr *)
Definition set_rate (rates : list (string * R)) (lrs : list (string * xr)) (kv : string * list xr) : res (list (string * xr)) :=
  r <- get (fst kv) rates ;;
  _ <- get (fst kv) lrs ;;
  Ok (update_at (fst kv) (xdiv (Fin r) (np_nanmedian (snd kv))) lrs).
(* _reset 188-190 (on_train_begin 33-39), on_backwards_end 155-165, on_epoch_end 167-186 *)
Definition opt_own (rates : list (string * R)) : own_warm optc := fun e s s' train o =>
  match e with
  | TrainBegin => Ok (Optc (map (fun kr => (fst kr, [])) rates) (p_lr o) (p_grads o) (p_next o))
  | BackwardsEnd =>
      if is_active s && train then
        st <- foldM (watch (p_grads o)) (map fst rates) (p_stats o) ;; Ok (Optc st (p_lr o) (p_grads o) (p_next o))
      else Ok o
  | EpochEnd =>
      if is_active s && train && is_over s' then
        lrs <- foldM (set_rate rates) (p_stats o) (p_lr o) ;; Ok (Optc (p_stats o) lrs (p_grads o) (p_next o))
      else Ok o
  | _ => Ok o
  end.
