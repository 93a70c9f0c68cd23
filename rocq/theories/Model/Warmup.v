(* Model of tomopt/optimisation/callbacks/warmup_callbacks.py.
   The callbacks of a fit are named by their places 0, 1, ... in the list; they are different objects.
   Attributes that do not exist before on_train_begin have arbitrary values. *)
From Verif Require Export Model.CbView.
Open Scope list_scope.

(* the callback at one place: WarmupCallback with n_warmup, epoch_cnt, warmup_active; PostWarmupCallback with active; any other.
   fit_params.warmup_cbs (volume_wrapper.py:482-511) are the SWarm ones, in order *)
Inductive slot := SWarm (n cnt : nat) (on : bool) | SPost (on : bool) | SOther.
Fixpoint set_at (k : nat) (x : slot) (l : list slot) : list slot :=
  match l, k with [], _ => [] | _ :: l, O => x :: l | y :: l, S k => y :: set_at k x l end.
(* warmup_cbs[0].warmup_active = True, of the ones in l; false: there are none *)
Fixpoint switch_on (l : list slot) : list slot * bool :=
  match l with
  | [] => ([], false)
  | SWarm n c _ :: l => (SWarm n c true :: l, true)
  | s :: l => let (l, b) := switch_on l in (s :: l, b)
  end.
(* warmup_callbacks.py:41-55  check_warmups: the callbacks afterwards, and skip_opt_step *)
Fixpoint check_warmups (l : list slot) (skip : bool) : list slot * bool :=
  match l with
  | [] => ([], skip)
  | SWarm n c true :: l' =>
      if Nat.leb n c then let (l'', more) := switch_on l' in (SWarm n c false :: l'', if more then skip else false)
      else let (l'', skip') := check_warmups l' skip in (SWarm n c true :: l'', skip')
  | s :: l' => let (l'', skip') := check_warmups l' skip in (s :: l'', skip')
  end.
Definition all_off (l : list slot) : bool := forallb (fun s => match s with SWarm _ _ true => false | _ => true end) l.
(* WarmupCallback: on_train_begin 33-39 with _reset 75-83, on_epoch_begin 57-63, on_epoch_end 65-73;
   PostWarmupCallback: on_train_begin 198-204, check_warmups 206-214, on_epoch_begin 219-225 *)
Definition warm_cb (k : nat) : reaction (list slot) := fun e v =>
  let l := vw_st v in
  match nth_error l k, e with
  | Some (SWarm n _ _), TrainBegin => Ok (true, fst (switch_on (set_at k (SWarm n 0 false) l)))
  | Some (SWarm _ _ _), EpochBegin =>
      if in_train v then let (l, skip) := check_warmups l (vw_skip v) in Ok (skip, l) else same_as v
  | Some (SWarm n c true), EpochEnd => if in_train v then Ok (vw_skip v, set_at k (SWarm n (S c) true) l) else same_as v
  | Some (SPost _), TrainBegin => Ok (vw_skip v, set_at k (SPost false) l)
  | Some (SPost false), EpochBegin =>
      if (in_train v && all_off l)%bool then Ok (vw_skip v, set_at k (SPost true) l) else same_as v
  | _, _ => same_as v
  end.
