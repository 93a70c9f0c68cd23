(* Model of the scheduling callbacks: optimisation/callbacks/opt_callbacks.py (OneCycle) and
   optimisation/callbacks/detector_callbacks.py (SigmoidPanelSmoothnessSchedule), both PostWarmupCallbacks. *)
From Coq Require Import ZArith.
From Verif Require Export Model.Warmup.
From Verif Require Import Base.RUtil.
Open Scope R_scope.
Open Scope list_scope.

(* active of the post-warm-up callback at place q *)
Definition act_of (l : list slot) (q : nat) : bool := match nth_error l q with Some (SPost b) => b | _ => false end.
Definition with_st {S T} (v : view S) (t : T) : view T := View (vw_mode v) (vw_epoch v) (vw_skip v) (vw_n_epochs v) (vw_bs v) t.
(* the own code of such a callback: the event, whether _activate is called in it, active; its attributes and what it acts on *)
Definition own_cb (O : Type) : Type := event -> bool -> bool -> view O -> res O.
(* warm-ups, and a post-warm-up callback with own code at place q: the method of the base class runs first *)
Definition post_cb {O} (q : nat) (own : own_cb O) (k : nat) : reaction (list slot * O) := fun e v =>
  let (l, o) := vw_st v in
  match warm_cb k e (with_st v l) with
  | Err x => Err x
  | Ok (skip, l') =>
      if Nat.eqb k q
      then match own e (negb (act_of l q) && act_of l' q)%bool (act_of l' q) (with_st v o) with Ok o' => Ok (skip, (l', o')) | Err x => Err x end
      else Ok (skip, (l', o))
  end.

(* ---- opt_callbacks.py: OneCycle ---- *)
(* 90-106  the arguments; final falls back to init *)
Record oc_args := OcArgs { oa_length : nat; oa_init_lr : option R; oa_mid_lr : option R; oa_final_lr : option R;
                           oa_init_mom : option R; oa_mid_mom : option R; oa_final_mom : option R }.
Definition or_else {A} (x y : option A) : option A := match x with Some _ => x | None => y end.
(* iter_cnt; n_iters_per_epoch and n_epochs_expected; warming_up and scale: missing before the first _activate; the rates of the optimiser *)
Record oc := Oc { oc_iter : nat; oc_exp : option (nat * Z); oc_phase : option (bool * Z); oc_lr : R; oc_mom : R }.
Definition or_keep (x : option R) (y : R) : R := match x with Some r => r | None => y end.
(* 124-130  get_param *)
Definition get_param (warming : bool) (x : R) (init mid final : option R) : res R :=
  match (if warming then init else final), mid with
  | Some p0, Some p1 => Ok (p1 - (p1 - p0) * x / 2)
  | _, _ => Err TypeErr
  end.
(* 121-140  schedule *)
Definition one_rate (warming : bool) (x : R) (init mid final : option R) : res (option R) :=
  match init with None => Ok None | Some _ => (r <- get_param warming x init mid final ;; Ok (Some r)) end.
Definition schedule (g : oc_args) (o : oc) : res (option R * option R) :=
  match oc_phase o with
  | None => Err AttributeError
  | Some (w, scale) =>
      if Z.eqb scale 0 then Err ZeroDivisionError else
      let x := cos (PI * INR (oc_iter o) / IZR scale) + 1 in
      lr <- one_rate w x (oa_init_lr g) (oa_mid_lr g) (or_else (oa_final_lr g) (oa_init_lr g)) ;;
      mom <- one_rate w x (oa_init_mom g) (oa_mid_mom g) (or_else (oa_final_mom g) (oa_init_mom g)) ;;
      Ok (lr, mom)
  end.
(* 33-36, 115-119  _activate *)
Definition oc_activate (g : oc_args) (n_trn : nat) (v : view oc) : res oc :=
  let o := vw_st v in
  match vw_bs v, vw_n_epochs v with
  | Some bs, Some n =>
      if Nat.eqb bs 0 then Err ZeroDivisionError else
      let it := (n_trn / bs)%nat in
      Ok (Oc (oc_iter o) (Some (it, Z.of_nat n - Z.of_nat (vw_epoch v) + 1)%Z) (Some (true, Z.of_nat (oa_length g) * Z.of_nat it)%Z) (oc_lr o) (oc_mom o))
  | _, _ => Err TypeErr
  end.
(* set_wrapper 28-31, on_train_begin 46-52, on_epoch_begin (base class), on_epoch_end 108-113, on_step_end 54-61;
   known: the optimiser exists, n_trn: len(trn_passives) *)
Definition one_cycle (g : oc_args) (known : bool) (n_trn : nat) : own_cb oc := fun e fires active v =>
  let o := vw_st v in
  match e with
  | SetWrapper => if known then Ok o else Err ValueError
  | TrainBegin => Ok (Oc 0 (oc_exp o) (oc_phase o) (or_keep (oa_init_lr g) (oc_lr o)) (or_keep (oa_init_mom g) (oc_mom o)))
  | EpochBegin => if fires then oc_activate g n_trn v else Ok o
  | EpochEnd =>
      if Z.eqb (Z.of_nat (vw_epoch v) - 1) (Z.of_nat (oa_length g)) then
        match oc_exp o with
        | None => Err AttributeError
        | Some (it, n) => Ok (Oc 0 (oc_exp o) (Some (false, (n - Z.of_nat (vw_epoch v) + 1) * Z.of_nat it)%Z) (oc_lr o) (oc_mom o))
        end
      else Ok o
  | StepEnd =>
      if active then
        let o := Oc (S (oc_iter o)) (oc_exp o) (oc_phase o) (oc_lr o) (oc_mom o) in
        '(lr, mom) <- schedule g o ;;
        Ok (Oc (oc_iter o) (oc_exp o) (oc_phase o) (or_keep lr (oc_lr o)) (or_keep mom (oc_mom o)))
      else Ok o
  | _ => Ok o
  end.

(* ---- detector_callbacks.py: SigmoidPanelSmoothnessSchedule ---- *)
Definition log10 (x : R) : R := ln x / ln 10.
(* torch.logspace(a, b, n), over the reals *)
Definition logspace (a b : R) (n : nat) : list R :=
  map (fun i => Rpower 10 (if Nat.eqb n 1 then a else a + (b - a) * INR i / INR (n - 1))) (seq 0 n).
(* t[i] of a tensor with one axis: negative numbers count from the end *)
Definition tensor_get (l : list R) (i : Z) : res R :=
  let j := (if (i <? 0)%Z then i + Z.of_nat (length l) else i)%Z in
  if (j <? 0)%Z then Err IndexError else match nth_error l (Z.to_nat j) with Some x => Ok x | None => Err IndexError end.
(* offset and smooth (missing before the first _activate), and the smooth attributes of the sigmoid panels of the volume *)
Record sm := Sm { sm_plan : option (Z * list R); sm_panels : list R }.
(* 49-61  _set_smooth *)
Definition set_smooth (x : R) (o : sm) : sm := Sm (sm_plan o) (map (fun _ => x) (sm_panels o)).
(* 32-39  _activate *)
Definition sm_activate (r0 r1 : R) (v : view sm) : res sm :=
  match vw_n_epochs v with
  | None => Err TypeErr
  | Some n =>
      let offset := (Z.of_nat (vw_epoch v) - 1)%Z in
      if (Z.of_nat n - offset <? 0)%Z then Err RuntimeError else
      Ok (Sm (Some (offset, logspace (log10 r0) (log10 r1) (Z.to_nat (Z.of_nat n - offset)))) (sm_panels (vw_st v)))
  end.
(* on_train_begin 41-47, on_epoch_begin 63-71 *)
Definition smooth_sched (r0 r1 : R) : own_cb sm := fun e fires active v =>
  match e with
  | TrainBegin => Ok (set_smooth r0 (vw_st v))
  | EpochBegin =>
      o <- (if fires then sm_activate r0 r1 v else Ok (vw_st v)) ;;
      if (active && in_train v)%bool then
        match sm_plan o with
        | None => Err AttributeError
        | Some (offset, t) => x <- tensor_get t (Z.of_nat (vw_epoch v) - offset - 1) ;; Ok (set_smooth x o)
        end
      else Ok o
  | _ => Ok (vw_st v)
  end.
