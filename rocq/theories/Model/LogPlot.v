(* Model of tomopt/optimisation/callbacks/monitors.py: what MetricLogger and PanelMetricLogger draw, print and report, and the gif of it.
   Colours, labels, limits and the panels' outlines are left out. *)
From Coq Require Import String ZArith.
From Verif Require Export Model.Monitor Model.Metric Model.Observer.
From Verif Require Import Base.XR.
Open Scope R_scope.
Open Scope list_scope.

(* ---- the grid of plots ---- *)
(* slice(lo, hi).indices(n) of Python *)
Definition slice_at (n : nat) (d : nat) (i : option Z) : nat :=
  match i with
  | None => d
  | Some i => let i := if (i <? 0)%Z then (i + Z.of_nat n)%Z else i in Z.to_nat (Z.max 0 (Z.min i (Z.of_nat n)))
  end.
(* matplotlib.gridspec: gs[lo:hi] along a side with n cells raises if nothing is left; the cells from .. up to but without .. *)
Definition span (n : nat) (lo hi : option Z) : res (nat * nat) :=
  let a := slice_at n 0 lo in let b := slice_at n n hi in if (a <? b)%nat then Ok (a, b) else Err IndexError.
Record area := Area { ar_rows : nat * nat; ar_cols : nat * nat }.
Definition subplot (grid : nat * nat) (r c : option Z * option Z) : res area :=
  rs <- span (fst grid) (fst r) (snd r) ;; cs <- span (snd grid) (fst c) (snd c) ;; Ok (Area rs cs).
Definition whole : option Z * option Z := (None, None).
Definition from_to (a b : Z) : option Z * option Z := (Some a, Some b).
(* 295-301  _build_grid_spec of MetricLogger; 432-439 of PanelMetricLogger; metric: main_metric_idx is not None *)
Definition grid_of (metric : bool) : nat * nat := ((3 + if metric then 0 else 1)%nat, 1%nat).
Definition panel_grid (metric sigmoid : bool) : nat * nat := ((5 + if metric then 0 else 1)%nat, (3 + if sigmoid then 1 else 0)%nat).
(* 303-326  _prep_plots: loss_ax, sub_loss_ax, metric_ax *)
Definition common_plots (metric : bool) (grid : nat * nat) : res (list area) :=
  a <- subplot grid (None, Some 3%Z) whole ;;
  b <- subplot grid (from_to 3 4) whole ;;
  if metric then (m <- subplot grid (from_to 4 5) whole ;; Ok [a; b; m]) else Ok [a; b].
Definition prep_plots (metric : bool) : res (list area) := common_plots metric (grid_of metric).
(* 360-372  _prep_plots of PanelMetricLogger: above_det, below_det, panel_smoothness *)
Definition panel_plots (metric sigmoid : bool) : res (list area) :=
  let grid := panel_grid metric sigmoid in
  l <- common_plots metric grid ;;
  u <- mapM (fun i => subplot grid (from_to (-2) (-1)) (from_to i (i + 1))) [0; 1; 2]%Z ;;
  d <- mapM (fun i => subplot grid (Some (-1)%Z, None) (from_to i (i + 1))) [0; 1; 2]%Z ;;
  if sigmoid then (s <- subplot grid (from_to (-2) (-1)) (Some (-1)%Z, None) ;; Ok (l ++ u ++ d ++ [s])) else Ok (l ++ u ++ d).

(* ---- the curves ---- *)
(* Axes.plot raises for lists of different lengths *)
Definition curve (xs : list R) (ys : list xr) : res (list (R * xr)) := if Nat.eqb (length xs) (length ys) then Ok (combine xs ys) else Err ValueError.
(* numpy.linspace(0, b, n, endpoint=False) *)
Definition linspace (b : R) (n : nat) : list R := map (fun i => INR i * (b / INR n)) (seq 0 n).
(* 89  n_trn_batches *)
Definition trn_batches (n_trn bs : nat) : nat := Nat.div n_trn bs.
(* 204-209  update_plot: the curve of the training losses *)
Definition training_curve (nb : nat) (g : lg) : res (list (R * xr)) :=
  if Nat.eqb nb 0 then Err ZeroDivisionError
  else curve (map (fun x => 1 / INR nb + x) (linspace (INR (length (g_val g))) (nb * length (g_val g)))) (g_trn g).
(* 210-211  and of the validation losses *)
Definition validation_curve (g : lg) : res (list (R * xr)) := curve (map INR (seq 1 (length (g_val g)))) (g_val g).
(* 224-231  and of the main metric, once there are two epochs *)
Definition metric_curve (nb : nat) (m : mlog) : res (option (list (R * xr))) :=
  if (1 <? length (l_val m))%nat then
    match fst (l_pick m) with
    | None => Ok None
    | Some k =>
        if Nat.eqb nb 0 then Err ValueError
        else (y <- pick_at k (l_mets m) ;; rmap Some (curve (map (fun i => INR (nb * i)) (seq 1 (length (l_val m)))) y))
    end
  else Ok None.

(* 183-193  print_losses: number of the epoch, numpy.mean of the last losses of the training, last loss of the validation *)
Definition last_of {A} (n : nat) (l : list A) : list A := match n with O => l | _ => skipn (length l - n) l end.
Definition np_mean (l : list xr) : xr := xdiv (fold_left xadd l (Fin 0)) (Fin (INR (length l))).
Definition printed (nb : nat) (g : lg) : res (nat * xr * xr) :=
  v <- pick_last (g_val g) ;; Ok (length (g_val g), np_mean (last_of nb (g_trn g)), v).

(* 251-264  get_loss_history: the losses, and the metrics by name; ended: on_train_end (249) has been called *)
Fixpoint dict_put {A} (k : string) (v : A) (d : list (string * A)) : list (string * A) :=
  match d with [] => [(k, v)] | (k', w) :: d => if String.eqb k' k then (k, v) :: d else (k', w) :: dict_put k v d end.
Definition loss_history (info : nat -> metric) (ms : list nat) (ended : bool) (g : lg) (m : mlog) : (list xr * list xr) * list (string * list xr) :=
  ((g_trn g, g_val g),
   fold_left (fun d vc => dict_put (mt_name (info (snd vc))) (fst vc) d) (combine (l_mets m) (if ended then ms else [])) []).

(* ---- the gif ---- *)
(* the numbers of _buffer_files, of the files temp_monitor_{n}.png, and the gif: its frames and how long each is shown *)
Record shots := Shots { sh_buffer : list nat; sh_files : list nat; sh_gif : option (list nat * R) }.
(* 287-293  _snapshot_monitor *)
Definition snapshot (s : shots) : shots :=
  let n := length (sh_buffer s) in Shots (sh_buffer s ++ [n]) (sh_files s ++ [n]) (sh_gif s).
(* 328-338  _create_gif *)
Definition log_gif (len : R) (s : shots) : res unit * shots :=
  if Nat.eqb (length (sh_buffer s)) 0 then (Err ZeroDivisionError, s)
  else if forallb (fun n => existsb (Nat.eqb n) (sh_files s)) (sh_buffer s)
       then (Ok tt, Shots (sh_buffer s) (sh_files s) (Some (sh_buffer s, len / INR (length (sh_buffer s)))))
       else (Err FileNotFoundError, s).
(* 90, 114-122, 240-247; show: gif_filename is not None and show_plots *)
Definition shots_cb {W P} (show : bool) (len : R) (e : event) (f : fp P) (w : W) (s : shots) : res unit * shots :=
  match e with
  | TrainBegin => (Ok tt, Shots [] (sh_files s) (sh_gif s))
  | EpochBegin => (Ok tt, if show && is_train (f_state f) then snapshot s else s)
  | TrainEnd => if show then log_gif len (snapshot s) else (Ok tt, s)
  | _ => (Ok tt, s)
  end.
