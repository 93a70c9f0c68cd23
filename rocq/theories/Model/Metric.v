(* Model of tomopt/optimisation/callbacks/eval_metric.py (EvalMetric) and of the parts of monitors.py (MetricLogger) that choose the
   main metric, log the values of metrics and report results.  Metrics are numbered objects; a value is a float (not None).
   The losses of the validation epochs and the values of the metrics at the end of each of them are given; Model/Monitor.v has the
   losses. *)
From Coq Require Import String.
From Verif Require Export Base.Res Base.XR.
Open Scope R_scope.
Open Scope string_scope.
Open Scope list_scope.

(* eval_metric.py:24-30  name and lower_metric_better of a metric *)
Record metric := Metric { mt_name : string; mt_lower : bool }.
(* the callbacks of a fit: metrics, loggers and others *)
Inductive slot := SMetric (i : nat) | SLogger | SOther.
(* volume_wrapper.py:506-507  metric_cbs *)
Fixpoint metric_ids (cbs : list slot) : list nat :=
  match cbs with [] => [] | SMetric i :: l => i :: metric_ids l | _ :: l => metric_ids l end.
Definition mem (i : nat) (l : list nat) : bool := existsb (Nat.eqb i) l.

(* main_metric of every metric *)
Definition flags := nat -> bool.
(* eval_metric.py:32-42  on_train_begin *)
Definition metric_begin (ms : list nat) (i : nat) (fl : flags) : flags :=
  if fl i then fun j => if Nat.eqb j i then true else if mem j ms then false else fl j
  else fl.
(* monitors.py:93-101  main_metric_idx and lock_to_metric *)
Fixpoint first_main (fl : flags) (k : nat) (ms : list nat) : option nat :=
  match ms with [] => None | i :: ms => if fl i then Some k else first_main fl (S k) ms end.
Definition choose (ms : list nat) (fl : flags) : option nat * bool :=
  match ms with
  | [] => (None, false)
  | _ => match first_main fl 0 ms with Some k => (Some k, true) | None => (Some 0%nat, false) end
  end.
(* volume_wrapper.py:361-362  on_train_begin of all callbacks, in their order *)
Definition begin_slot (ms : list nat) (s : flags * (option nat * bool)) (c : slot) : flags * (option nat * bool) :=
  match c with
  | SMetric i => (metric_begin ms i (fst s), snd s)
  | SLogger => (fst s, choose ms (fst s))
  | SOther => s
  end.
Definition train_begin (cbs : list slot) (s : flags * (option nat * bool)) : flags * (option nat * bool) :=
  fold_left (begin_slot (metric_ids cbs)) cbs s.

(* monitors.py:79-95  loss_vals["Validation"], metric_vals, (main_metric_idx, lock_to_metric), val_epoch_results *)
Record mlog := Mlog { l_val : list xr; l_mets : list (list xr); l_pick : option nat * bool; l_result : option (xr * option xr) }.
Definition pick_at {A} (k : nat) (l : list A) : res A := match nth_error l k with Some x => Ok x | None => Err IndexError end.
Definition pick_last {A} (l : list A) : res A := match rev l with [] => Err IndexError | x :: _ => Ok x end.
Fixpoint append_each (ls : list (list xr)) (xs : list xr) : list (list xr) :=
  match ls, xs with l :: ls, x :: xs => (l ++ [x]) :: append_each ls xs | _, _ => ls end.
(* monitors.py:155-181  on_epoch_end of a validation epoch with loss val; now: the values of the metrics *)
Definition metric_epoch (info : nat -> metric) (ms : list nat) (g : mlog) (e : xr * (nat -> xr)) : res mlog :=
  let vals := l_val g ++ [fst e] in
  let mets := append_each (l_mets g) (map (snd e) ms) in
  m <- (match l_pick g with
        | (Some k, true) =>
            col <- pick_at k mets ;; m <- pick_last col ;;
            i <- pick_at k ms ;;
            Ok (Some (if mt_lower (info i) then m else xopp m))
        | (None, true) => Err TypeErr
        | (_, false) => Ok None
        end) ;;
  Ok (Mlog vals mets (l_pick g) (Some (fst e, m))).
(* a fit: on_train_begin, then the validation epochs *)
Definition metric_fit (info : nat -> metric) (cbs : list slot) (fl : flags) (es : list (xr * (nat -> xr))) : res (flags * mlog) :=
  let ms := metric_ids cbs in
  let s := train_begin cbs (fl, (None, false)) in
  g <- foldM (metric_epoch info ms) es (Mlog [] (map (fun _ => []) ms) (snd s) None) ;;
  Ok (fst s, g).

(* numpy.nanargmin and nanargmax: NaN is replaced by the worst infinity, the first best place is returned; if all are NaN, or there
   are none, ValueError *)
Fixpoint argbest (better : xr -> xr -> bool) (l : list xr) (k best : nat) (b : xr) : nat :=
  match l with [] => best | x :: l => if better x b then argbest better l (S k) k x else argbest better l (S k) best b end.
Definition fill (w : xr) (x : xr) : xr := if xisnan x then w else x.
Definition nanarg (better : xr -> xr -> bool) (worst : xr) (l : list xr) : res nat :=
  match map (fill worst) l with
  | [] => Err ValueError
  | x :: r => if forallb xisnan l then Err ValueError else Ok (argbest better r 1 0 x)
  end.
Definition nanargmin (l : list xr) : res nat := nanarg xlt PInf l.
Definition nanargmax (l : list xr) : res nat := nanarg (fun a b => xlt b a) NInf l.

(* d[k] = v *)
Fixpoint dict_set (k : string) (v : xr) (d : list (string * xr)) : list (string * xr) :=
  match d with [] => [(k, v)] | (k', w) :: d => if String.eqb k' k then (k, v) :: d else (k', w) :: dict_set k v d end.
(* monitors.py:266-285  get_results; ended: on_train_end (249) has been called, metric_cbs is empty before.  Index -1 is None *)
Definition col_at (idx : option nat) (l : list xr) : res xr := match idx with Some k => pick_at k l | None => pick_last l end.
Definition get_results (info : nat -> metric) (ms : list nat) (ended loaded_best : bool) (g : mlog) : res (list (string * xr)) :=
  let cbs := if ended then ms else [] in
  idx <- (if loaded_best then
            match l_pick g with
            | (Some k, true) =>
                i <- pick_at k cbs ;;
                col <- pick_at k (l_mets g) ;;
                rmap Some (if mt_lower (info i) then nanargmin col else nanargmax col)
            | (None, true) => Err TypeErr
            | (_, false) => rmap Some (nanargmin (l_val g))
            end
          else Ok None) ;;
  loss <- col_at idx (l_val g) ;;
  match cbs with
  | [] => Ok [("loss", loss)]
  | _ =>
      row <- mapM (col_at idx) (l_mets g) ;;
      Ok (fold_left (fun d iv => dict_set (mt_name (info (fst iv))) (snd iv) d) (combine cbs row) [("loss", loss)])
  end.
