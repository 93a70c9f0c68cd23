(* Model of tomopt/optimisation/wrapper/volume_wrapper.py: the fit and predict loops of AbsVolumeWrapper.
   The simulation, the inference, the loss, the optimisers and the callbacks are arbitrary functions that may raise.
   Callbacks may change fit_params and everything else, but not the list of callbacks and not fit_params being there.
   Progress bars are not modelled. *)
From Verif Require Export Base.Res Base.RUtil.
Open Scope R_scope.
Open Scope list_scope.

(* fit_params.state *)
Inductive mode := Train | Valid | Test.
Definition mode_eqb (a b : mode) : bool := match a, b with Train, Train | Valid, Valid | Test, Test => true | _, _ => false end.
(* callbacks/callback.py: the methods of a callback *)
Inductive event :=
  SetWrapper | TrainBegin | EpochBegin | VolumeBatchBegin | VolumeBegin | MuBatchBegin | ScatterEnd | MuBatchEnd | X0PredBegin
| X0PredEnd | VolumeEnd | VolumeBatchEnd | BackwardsBegin | BackwardsEnd | StepEnd | EpochEnd | TrainEnd | PredBegin | PredEnd.
(* trn_passives, val_passives, tst_passives *)
Inductive data := TrnData | ValData | TstData.

Section Fit.
(* W: everything outside fit_params, I: a passive layout with its target, P: a prediction *)
Variables (W I P : Type).

(* volume_wrapper.py:56-98  FitParams: what the loops use *)
Record fp := FP {
  f_state : option mode; f_stop : bool; f_skip : bool; f_epoch : nat;
  f_loss : option R; f_mean : option R; f_volume_id : option nat; f_pred : option P;
  f_passive_bs : option nat; f_n_mu : nat; f_mu_bs : nat; f_n_epochs : option nat }.
Definition set_state x f := FP x (f_stop f) (f_skip f) (f_epoch f) (f_loss f) (f_mean f) (f_volume_id f) (f_pred f) (f_passive_bs f) (f_n_mu f) (f_mu_bs f) (f_n_epochs f).
Definition set_epoch x f := FP (f_state f) (f_stop f) (f_skip f) x (f_loss f) (f_mean f) (f_volume_id f) (f_pred f) (f_passive_bs f) (f_n_mu f) (f_mu_bs f) (f_n_epochs f).
Definition set_loss x f := FP (f_state f) (f_stop f) (f_skip f) (f_epoch f) x (f_mean f) (f_volume_id f) (f_pred f) (f_passive_bs f) (f_n_mu f) (f_mu_bs f) (f_n_epochs f).
Definition set_mean x f := FP (f_state f) (f_stop f) (f_skip f) (f_epoch f) (f_loss f) x (f_volume_id f) (f_pred f) (f_passive_bs f) (f_n_mu f) (f_mu_bs f) (f_n_epochs f).
Definition set_volume_id x f := FP (f_state f) (f_stop f) (f_skip f) (f_epoch f) (f_loss f) (f_mean f) x (f_pred f) (f_passive_bs f) (f_n_mu f) (f_mu_bs f) (f_n_epochs f).
Definition set_pred x f := FP (f_state f) (f_stop f) (f_skip f) (f_epoch f) (f_loss f) (f_mean f) (f_volume_id f) x (f_passive_bs f) (f_n_mu f) (f_mu_bs f) (f_n_epochs f).

(* the parts that are not modelled *)
Record env := Env {
  e_cb : nat -> event -> fp * W -> res unit * (fp * W);      (* callbacks, by name *)
  e_len : data -> nat;                                       (* len(passives) *)
  e_next : data -> nat -> W -> res I * W;                    (* the i-th element when iterating *)
  e_load : I -> W -> res unit * W;                           (* volume.load_rad_length *)
  e_inferrer : W -> res unit * W;                            (* partial_volume_inferrer(volume=...) *)
  e_generate : nat -> W -> res unit * W;                     (* MuonBatch(mu_generator(mu_bs), ...) *)
  e_cross : W -> res unit * W;                               (* volume(mu) *)
  e_scatter : W -> res unit * W;                             (* partial_scatter_inferrer(...) *)
  e_add : W -> res unit * W;                                 (* volume_inferrer.add_scatters *)
  e_predict : W -> res (option P) * W;                       (* volume_inferrer.get_prediction *)
  e_loss : option (P -> W -> res R * W);                     (* loss_func *)
  e_zero_grad : W -> res unit * W;
  e_backward : R -> W -> res unit * W;
  e_step : W -> res unit * W;                                (* all optimisers *)
  e_conform : W -> res unit * W;                             (* all detectors *)
  e_train : W -> res unit * W; e_eval : W -> res unit * W;   (* volume.train(), volume.eval() *)
  e_mkdir : W -> res unit * W;
  e_no_shuffle : W -> W }.                                   (* passives.shuffle = False *)

(* what happened, in order.  Calls are recorded when they start *)
Inductive item :=
| Call (cb : nat) (e : event)
| SetTrain | SetEval | Loaded (x : I) | NewInferrer | Generated (n : nat) | Crossed | Scattered | Added
| Predicted (p : option P) | Loss (l : R) | Mean (l : option R) | ZeroGrad | Backward (l : R) | Step | Conform.

Record st := St { s_fp : fp; s_w : W; s_tr : list item }.
Definition M (A : Type) : Type := st -> res A * st.
Definition ret {A} (a : A) : M A := fun s => (Ok a, s).
Definition raise {A} (e : exn) : M A := fun s => (Err e, s).
Definition seqM {A B} (m : M A) (f : A -> M B) : M B :=
  fun s => match m s with (Ok a, s') => f a s' | (Err e, s') => (Err e, s') end.
Notation "x <~ m ;; f" := (seqM m (fun x => f)) (at level 61, m at next level, right associativity).
Definition emit (i : item) : M unit := fun s => (Ok tt, St (s_fp s) (s_w s) (s_tr s ++ [i])).
Definition getf {A} (g : fp -> A) : M A := fun s => (Ok (g (s_fp s)), s).
Definition modf (g : fp -> fp) : M unit := fun s => (Ok tt, St (g (s_fp s)) (s_w s) (s_tr s)).
Definition world {A} (g : W -> res A * W) : M A := fun s => let (r, w) := g (s_w s) in (r, St (s_fp s) w (s_tr s)).
Definition need {A} (o : option A) (e : exn) : M A := match o with Some a => ret a | None => raise e end.
Definition act (i : item) (g : W -> res unit * W) : M unit := _ <~ emit i ;; world g.
Fixpoint each {A} (f : A -> M unit) (l : list A) : M unit :=
  match l with [] => ret tt | a :: l => _ <~ f a ;; each f l end.
(* i % b, n // b *)
Definition is_multiple (i b : nat) : M bool := if Nat.eqb b 0 then raise ZeroDivisionError else ret (Nat.eqb (i mod b) 0).
Definition quotient (n b : nat) : M nat := if Nat.eqb b 0 then raise ZeroDivisionError else ret (n / b)%nat.

Variable E : env.
Variable cbs : list nat.      (* fit_params.cbs *)

Definition run_cb (k : nat) (e : event) : M unit :=
  fun s => let '(r, (f, w)) := e_cb E k e (s_fp s, s_w s) in (r, St f w (s_tr s)).
(* "for c in self.fit_params.cbs: c.on_...()" *)
Definition call (e : event) : M unit := each (fun k => _ <~ emit (Call k e) ;; run_cb k e) cbs.

(* volume_wrapper.py:592-630  _scan_volume *)
Definition mu_batch : M unit :=
  n <~ getf f_mu_bs ;;
  _ <~ act (Generated n) (e_generate E n) ;;
  _ <~ call MuBatchBegin ;;
  _ <~ act Crossed (e_cross E) ;;
  _ <~ act Scattered (e_scatter E) ;;
  _ <~ call ScatterEnd ;;
  _ <~ act Added (e_add E) ;;
  call MuBatchEnd.
Definition add_loss : M unit :=
  s <~ getf f_state ;;
  p <~ getf f_pred ;;
  match s, e_loss E, p with
  | Some Test, _, _ => ret tt
  | _, Some f, Some p =>
      l <~ world (f p) ;;
      _ <~ emit (Loss l) ;;
      modf (fun f => set_loss (match f_loss f with None => Some l | Some v => Some (v + l) end) f)
  | _, _, _ => ret tt
  end.
Definition scan_volume : M unit :=
  _ <~ modf (set_pred None) ;;
  n <~ getf f_n_mu ;;
  b <~ getf f_mu_bs ;;
  k <~ quotient n b ;;
  _ <~ act NewInferrer (e_inferrer E) ;;
  _ <~ each (fun _ => mu_batch) (seq 0 k) ;;
  _ <~ call X0PredBegin ;;
  p <~ world (e_predict E) ;;
  _ <~ modf (set_pred p) ;;
  _ <~ emit (Predicted p) ;;
  _ <~ call X0PredEnd ;;
  add_loss.

(* volume_wrapper.py:539-590  _scan_volumes *)
Definition is_test (s : option mode) : bool := match s with Some Test => true | _ => false end.
Definition is_train (s : option mode) : bool := match s with Some Train => true | _ => false end.
Definition batch_begin (i : nat) : M unit :=
  s <~ getf f_state ;;
  if is_test s then ret tt
  else
    b <~ getf f_passive_bs ;; b <~ need b TypeErr ;;
    first <~ is_multiple i b ;;
    if first then (_ <~ modf (set_loss None) ;; call VolumeBatchBegin) else ret tt.
Definition update : M unit :=
  _ <~ act ZeroGrad (e_zero_grad E) ;;
  _ <~ call BackwardsBegin ;;
  m <~ getf f_mean ;;
  _ <~ (match m with Some l => act (Backward l) (e_backward E l) | None => ret tt end) ;;
  _ <~ call BackwardsEnd ;;
  m <~ getf f_mean ;;
  skip <~ getf f_skip ;;
  _ <~ (match m with Some _ => if skip then ret tt else act Step (e_step E) | None => ret tt end) ;;
  _ <~ call StepEnd ;;
  act Conform (e_conform E).
(* true: leave the loop *)
Definition batch_end (d : data) (i : nat) : M bool :=
  s <~ getf f_state ;;
  if is_test s then ret false
  else
    b <~ getf f_passive_bs ;; b <~ need b TypeErr ;;
    last <~ is_multiple (i + 1) b ;;
    if last then
      l <~ getf f_loss ;;
      let mean := match l with Some l => Some (l / INR b) | None => None end in
      _ <~ modf (set_mean mean) ;;
      _ <~ emit (Mean mean) ;;
      _ <~ call VolumeBatchEnd ;;
      s <~ getf f_state ;;
      _ <~ (if is_train s then update else ret tt) ;;
      b <~ getf f_passive_bs ;; b <~ need b TypeErr ;;
      ret (Nat.ltb (e_len E d - (i + 1)) b)
    else ret false.
(* todo: how many volumes are left, the next having index i *)
Fixpoint scan_from (d : data) (todo i : nat) : M unit :=
  match todo with
  | O => ret tt
  | S todo =>
      x <~ world (e_next E d i) ;;
      _ <~ modf (set_volume_id (Some i)) ;;
      _ <~ batch_begin i ;;
      _ <~ act (Loaded x) (e_load E x) ;;
      _ <~ call VolumeBegin ;;
      _ <~ scan_volume ;;
      _ <~ call VolumeEnd ;;
      stop <~ batch_end d i ;;
      if stop then ret tt else scan_from d todo (S i)
  end.
Definition scan_volumes (d : data) : M unit := scan_from d (e_len E d) 0.

(* volume_wrapper.py:513-537  _fit_epoch *)
Definition run_epoch (d : data) : M unit :=
  _ <~ call EpochBegin ;; _ <~ scan_volumes d ;; call EpochEnd.
Definition fit_epoch (validate : bool) : M unit :=
  _ <~ modf (fun f => set_epoch (S (f_epoch f)) f) ;;
  _ <~ act SetTrain (e_train E) ;;
  _ <~ modf (set_state (Some Train)) ;;
  _ <~ run_epoch TrnData ;;
  if validate then
    _ <~ act SetEval (e_eval E) ;;
    _ <~ modf (set_state (Some Valid)) ;;
    run_epoch ValData
  else ret tt.
Fixpoint fit_epochs (validate : bool) (n : nat) : M unit :=
  match n with
  | O => ret tt
  | S n => _ <~ fit_epoch validate ;; stop <~ getf f_stop ;; if stop : bool then ret tt else fit_epochs validate n
  end.
(* the body of the try statements *)
Definition fit_body (validate : bool) : M unit :=
  _ <~ call SetWrapper ;;
  _ <~ call TrainBegin ;;
  n <~ getf f_n_epochs ;; n <~ need n TypeErr ;;
  _ <~ fit_epochs validate n ;;
  call TrainEnd.
Definition predict_body : M unit :=
  _ <~ call SetWrapper ;;
  _ <~ act SetEval (e_eval E) ;;
  _ <~ call PredBegin ;;
  _ <~ scan_volumes TstData ;;
  call PredEnd.
End Fit.
Arguments FP {P}. Arguments f_state {P}. Arguments f_stop {P}. Arguments f_skip {P}. Arguments f_epoch {P}. Arguments f_loss {P}.
Arguments f_mean {P}. Arguments f_volume_id {P}. Arguments f_pred {P}. Arguments f_passive_bs {P}. Arguments f_n_mu {P}. Arguments f_mu_bs {P}.
Arguments f_n_epochs {P}. Arguments set_state {P}. Arguments set_epoch {P}. Arguments set_loss {P}. Arguments set_mean {P}.
Arguments set_volume_id {P}. Arguments set_pred {P}.
Arguments Env {W I P}. Arguments e_cb {W I P}. Arguments e_len {W I P}. Arguments e_next {W I P}. Arguments e_load {W I P}.
Arguments e_inferrer {W I P}. Arguments e_generate {W I P}. Arguments e_cross {W I P}. Arguments e_scatter {W I P}. Arguments e_add {W I P}.
Arguments e_predict {W I P}. Arguments e_loss {W I P}. Arguments e_zero_grad {W I P}. Arguments e_backward {W I P}. Arguments e_step {W I P}.
Arguments e_conform {W I P}. Arguments e_train {W I P}. Arguments e_eval {W I P}. Arguments e_mkdir {W I P}. Arguments e_no_shuffle {W I P}.
Arguments Call {I P}. Arguments SetTrain {I P}. Arguments SetEval {I P}. Arguments Loaded {I P}. Arguments NewInferrer {I P}.
Arguments Generated {I P}. Arguments Crossed {I P}. Arguments Scattered {I P}. Arguments Added {I P}. Arguments Predicted {I P}.
Arguments Loss {I P}. Arguments Mean {I P}. Arguments ZeroGrad {I P}. Arguments Backward {I P}. Arguments Step {I P}. Arguments Conform {I P}.
Arguments St {W I P}. Arguments s_fp {W I P}. Arguments s_w {W I P}. Arguments s_tr {W I P}.
Arguments ret {W I P A}. Arguments raise {W I P A}. Arguments seqM {W I P A B}. Arguments emit {W I P}. Arguments getf {W I P A}.
Arguments modf {W I P}. Arguments world {W I P A}. Arguments need {W I P A}. Arguments act {W I P}. Arguments each {W I P A}.
Arguments is_multiple {W I P}. Arguments quotient {W I P}. Arguments run_cb {W I P}. Arguments call {W I P}. Arguments mu_batch {W I P}.
Arguments add_loss {W I P}. Arguments scan_volume {W I P}. Arguments batch_begin {W I P}. Arguments update {W I P}. Arguments batch_end {W I P}.
Arguments scan_from {W I P}. Arguments scan_volumes {W I P}. Arguments run_epoch {W I P}. Arguments fit_epoch {W I P}. Arguments fit_epochs {W I P}.
Arguments fit_body {W I P}. Arguments predict_body {W I P}.
Notation "x <~ m ;; f" := (seqM m (fun x => f)) (at level 61, m at next level, right associativity).

Section Wrapper.
Variables (W I P : Type).
(* the wrapper: its fit_params attribute, and the rest *)
Record wrapper := Wrapper { w_fp : option (fp P); w_w : W }.
Variable E : env W I P.
(* volume_wrapper.py:307-372  fit.  mkdir is called after fit_params was set and before the try statement *)
Definition fit (n_epochs passive_bs n_mu mu_bs : nat) (validate : bool) (cbs : list nat) (a : wrapper) : res (list nat) * wrapper * list (item I P) :=
  let f := FP None false false 0 None None None None (Some passive_bs) n_mu mu_bs (Some n_epochs) in
  match e_mkdir E (w_w a) with
  | (Err e, w) => (Err e, Wrapper (Some f) w, [])
  | (Ok _, w) =>
      let '(r, s) := fit_body E cbs validate (St f w []) in
      (match r with Ok _ => Ok cbs | Err e => Err e end, Wrapper None (s_w s), s_tr s)
  end.
(* volume_wrapper.py:374-426  predict: also the caller's list of callbacks afterwards *)
Definition predict {A} (get_preds : W -> A) (n_mu mu_bs : nat) (pred_cb : nat) (cbs : list nat) (a : wrapper) : res A * wrapper * list nat * list (item I P) :=
  let cbs := cbs ++ [pred_cb] in
  let w := e_no_shuffle E (w_w a) in
  let f := FP (Some Test) false false 0 None None None None None n_mu mu_bs None in
  let '(r, s) := predict_body E cbs (St f w []) in
  let cbs := removelast cbs in
  let a := Wrapper None (s_w s) in
  (match r with Ok _ => Ok (get_preds (w_w a)) | Err e => Err e end, a, cbs, s_tr s).
End Wrapper.
Arguments Wrapper {W P}. Arguments w_fp {W P}. Arguments w_w {W P}. Arguments fit {W I P}. Arguments predict {W I P} E {A}.
