(* Schedules, as formulas. *)
From Verif Require Import Base.RUtil Model.Fit Model.Schedules Spec.FitSpec Spec.ReplaySpec.
Open Scope R_scope.
Open Scope list_scope.

(* half a cosine from p0 (t = 0) to p1 (t = s) *)
Definition ramp (p0 p1 t s : R) : R := p1 - (p1 - p0) * (cos (PI * t / s) + 1) / 2.
(* the trace after b batches of training epoch i *)
Definition after {I P} (c : cfg) (xs : list (epoch I P)) (i : nat) (x : epoch I P) (b : nat) : list (item I P) :=
  upto c xs i ++ flat_map (doc_batch c true (ep_skip x)) (firstn b (sc_batches (ep_train x))).
(* what OneCycle makes of a rate after b batches of epoch i, out of n epochs of bb batches, after t warm-up epochs, with warmup_length w:
   init, mid, final: the arguments, r0: the rate before the fit, r: the rate *)
Definition one_cycle_rate (init mid final : option R) (n bb t w i b : nat) (r0 r : R) : Prop :=
  match init with
  | None => r = r0
  | Some p0 =>
      ((i < t)%nat -> r = p0) /\
      ((t <= i)%nat -> exists p1, mid = Some p1 /\
         (((i <= w)%nat \/ (w < t)%nat) -> r = ramp p0 p1 (INR ((i - t) * bb + b)) (INR (w * bb))) /\
         ((t <= w < i)%nat -> r = ramp (match final with Some p => p | None => p0 end) p1 (INR ((i - w - 1) * bb + b)) ((INR n - INR t - INR w) * INR bb)))
  end.
(* the value of the smoothness schedule, n epochs from r0 to r1 *)
Definition geometric (r0 r1 : R) (n i : nat) : R := if Nat.eqb n 1 then r0 else r0 * Rpower (r1 / r0) (INR i / INR (n - 1)).
