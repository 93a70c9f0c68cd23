(* The windows of warm-up callbacks. *)
From Verif Require Import Base.RUtil Model.Warmup.
Open Scope list_scope.

(* the lengths of the warm-ups, in order *)
Fixpoint lengths (l : list slot) : list nat :=
  match l with [] => [] | SWarm n _ _ :: l => n :: lengths l | _ :: l => lengths l end.
(* how many training epochs are warm-up; before which epoch (counted from 0) the window of the callback at place k starts *)
Definition total (l : list slot) : nat := list_sum (lengths l).
Definition start (l : list slot) (k : nat) : nat := total (firstn k l).
Definition is_on (s : slot) : bool := match s with SWarm _ _ b => b | _ => false end.
(* the callbacks are at places 0, 1, ... *)
Definition places (l : list slot) : list nat := seq 0 (length l).
