(* Which metric leads, and which epoch is the best one (C94). *)
From Verif Require Import Model.Metric.
Open Scope list_scope.

(* the metric that leads: the first of the callbacks that is marked as main *)
Definition leader (fl : flags) (cbs : list slot) (i : nat) : Prop :=
  exists c1 c2, cbs = c1 ++ SMetric i :: c2 /\ fl i = true /\ forall j, In (SMetric j) c1 -> fl j = false.
Definition no_leader (fl : flags) (cbs : list slot) : Prop := forall j, In (SMetric j) cbs -> fl j = false.
(* x is better than y *)
Definition better (lower : bool) (x y : xr) : Prop := if lower then xlt x y = true else xlt y x = true.
Definition worst (lower : bool) : xr := if lower then PInf else NInf.
(* the first of the best values, numbers only *)
Definition best_at (lower : bool) (l : list xr) (e : nat) : Prop :=
  exists v, nth_error l e = Some v /\ v <> NaN
  /\ (forall e' v', nth_error l e' = Some v' -> ~ better lower v' v)
  /\ (forall e' v', (e' < e)%nat -> nth_error l e' = Some v' -> v' <> NaN -> better lower v v').
(* some value is a number and not infinitely bad *)
Definition some_value (lower : bool) (l : list xr) : Prop := exists v, In v l /\ v <> NaN /\ v <> worst lower.
(* the names of the metrics are different, and none is called loss *)
Definition names_ok (info : nat -> metric) (ms : list nat) : Prop := NoDup ("loss"%string :: map (fun i => mt_name (info i)) ms).
(* loss and metrics of an epoch *)
Definition report (info : nat -> metric) (ms : list nat) (e : xr * (nat -> xr)) : list (String.string * xr) :=
  ("loss"%string, fst e) :: map (fun i => (mt_name (info i), snd e i)) ms.
