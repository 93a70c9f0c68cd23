(* Model of tomopt/optimisation/callbacks/monitors.py: what MetricLogger records during a fit.
   Metrics are in Model/Metric.v, plots and printing in Model/LogPlot.v.  The sub-losses of one evaluation are numbers. *)
From Coq Require Import String.
From Verif Require Export Model.Fit Base.XR.
Open Scope R_scope.
Open Scope list_scope.

(* d[k] += x for a defaultdict(float); d[k].append(x) for a defaultdict(list) *)
Fixpoint add_to (k : string) (x : R) (d : list (string * R)) : list (string * R) :=
  match d with [] => [(k, 0 + x)] | (k', y) :: d => if String.eqb k' k then (k', y + x) :: d else (k', y) :: add_to k x d end.
Fixpoint append_to (k : string) (x : xr) (d : list (string * list xr)) : list (string * list xr) :=
  match d with [] => [(k, [x])] | (k', l) :: d => if String.eqb k' k then (k', l ++ [x]) :: d else (k', l) :: append_to k x d end.

(* loss_vals["Training"], loss_vals["Validation"], sub_losses, best_loss; tmp_loss, batch_cnt, volume_cnt, tmp_sub_losses *)
Record lg := Lg { g_trn : list xr; g_val : list xr; g_sub : list (string * list xr); g_best : xr;
                  g_tmp : xr; g_batches : nat; g_volumes : nat; g_tmp_sub : list (string * R) }.
(* what it reads: fit_params.state, whether fit_params.pred is there, fit_params.mean_loss, loss_func.sub_losses (None: no such attribute) *)
Record lsee := Lsee { e_mode : option mode; e_pred : bool; e_mean : option R; e_subs : option (list (string * R)) }.
Definition is_valid (s : option mode) : bool := match s with Some Valid => true | _ => false end.
(* mean_loss.data.item() if mean_loss is not None else math.inf *)
Definition or_inf (m : option R) : xr := match m with Some x => Fin x | None => PInf end.
(* division of Python floats *)
Definition pydiv (a b : xr) : res xr := if xeq b (Fin 0) then Err ZeroDivisionError else Ok (xdiv a b).

(* 155-168  on_epoch_end *)
Definition log_epoch_end (g : lg) : res lg :=
  val <- pydiv (g_tmp g) (Fin (INR (g_batches g))) ;;
  fracs <- mapM (fun kv => q <- pydiv (Fin (snd kv)) (xmul val (Fin (INR (g_volumes g)))) ;; Ok (fst kv, q)) (g_tmp_sub g) ;;
  Ok (Lg (g_trn g) (g_val g ++ [val]) (fold_left (fun d kq => append_to (fst kq) (snd kq) d) fracs (g_sub g))
         (if xle val (g_best g) then val else g_best g) (g_tmp g) (g_batches g) (g_volumes g) (g_tmp_sub g)).
(* on_train_begin 106-112 with _reset 79-90, on_epoch_begin 114-122, on_volume_end 124-136, on_backwards_end 138-144,
   on_volume_batch_end 146-153, on_epoch_end *)
Definition log_cb (e : event) (v : lsee) (g : lg) : res lg :=
  match e with
  | TrainBegin => Ok (Lg [] [] [] PInf (g_tmp g) (g_batches g) (g_volumes g) (g_tmp_sub g))
  | EpochBegin => Ok (Lg (g_trn g) (g_val g) (g_sub g) (g_best g) (Fin 0) 0 0 [])
  | VolumeEnd =>
      match is_valid (e_mode v), e_subs v with
      | true, Some subs =>
          if e_pred v then
            Ok (Lg (g_trn g) (g_val g) (g_sub g) (g_best g) (g_tmp g) (g_batches g) (S (g_volumes g))
                   (fold_left (fun d kx => add_to (fst kx) (snd kx) d) subs (g_tmp_sub g)))
          else
            Ok (Lg (g_trn g) (g_val g) (g_sub g) (g_best g) (g_tmp g) (g_batches g) (g_volumes g)
                   (fold_left (fun d kx => add_to (fst kx) 0 d) subs (g_tmp_sub g)))
      | _, _ => Ok g
      end
  | BackwardsEnd =>
      if is_train (e_mode v)
      then Ok (Lg (g_trn g ++ [or_inf (e_mean v)]) (g_val g) (g_sub g) (g_best g) (g_tmp g) (g_batches g) (g_volumes g) (g_tmp_sub g))
      else Ok g
  | VolumeBatchEnd =>
      if is_valid (e_mode v)
      then Ok (Lg (g_trn g) (g_val g) (g_sub g) (g_best g) (xadd (g_tmp g) (or_inf (e_mean v))) (S (g_batches g)) (g_volumes g) (g_tmp_sub g))
      else Ok g
  | EpochEnd => if is_valid (e_mode v) then log_epoch_end g else Ok g
  | _ => Ok g
  end.

(* The logger, at place k of the callbacks, along the trace of a fit (Model/Fit.v).  What it reads follows from the trace:
   volume_wrapper.py:530 and 536 set the state, 599 clears pred, 620 sets it, 564-567 set mean_loss.
   ds: what loss_func.sub_losses is after each of the coming evaluations *)
Record lrun := Lrun { r_see : lsee; r_ds : list (list (string * R)); r_lg : lg }.
Definition log_step {I P} (k : nat) (i : item I P) (s : lrun) : res lrun :=
  let v := r_see s in
  match i with
  | SetTrain => Ok (Lrun (Lsee (Some Train) (e_pred v) (e_mean v) (e_subs v)) (r_ds s) (r_lg s))
  | SetEval => Ok (Lrun (Lsee (Some Valid) (e_pred v) (e_mean v) (e_subs v)) (r_ds s) (r_lg s))
  | NewInferrer => Ok (Lrun (Lsee (e_mode v) false (e_mean v) (e_subs v)) (r_ds s) (r_lg s))
  | Predicted p => Ok (Lrun (Lsee (e_mode v) (match p with Some _ => true | None => false end) (e_mean v) (e_subs v)) (r_ds s) (r_lg s))
  | Loss _ => match r_ds s with d :: ds => Ok (Lrun (Lsee (e_mode v) (e_pred v) (e_mean v) (Some d)) ds (r_lg s)) | [] => Ok s end
  | Mean m => Ok (Lrun (Lsee (e_mode v) (e_pred v) m (e_subs v)) (r_ds s) (r_lg s))
  | Call k' e => if Nat.eqb k' k then (g <- log_cb e v (r_lg s) ;; Ok (Lrun v (r_ds s) g)) else Ok s
  | _ => Ok s
  end.
Definition log_run {I P} (k : nat) (l : list (item I P)) (s : lrun) : res lrun := foldM (fun s i => log_step k i s) l s.
