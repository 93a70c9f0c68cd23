(* The documented order of the fit and predict loops (callbacks/callback.py:28-89 and the docstring of PanelVolumeWrapper,
   volume_wrapper.py), written as lists of trace items.  Nothing here runs the model. *)
From Verif Require Import Base.RUtil Model.Fit.
Open Scope list_scope.

(* one scanned volume: what was loaded, what was predicted, its loss *)
Record vol (I P : Type) := Vol { v_item : I; v_pred : option P; v_loss : option R }.
Arguments Vol {I P}. Arguments v_item {I P}. Arguments v_pred {I P}. Arguments v_loss {I P}.

(* the settings of a run *)
Record cfg := Cfg { c_cbs : list nat; c_bs : nat; c_n_mu : nat; c_mu_bs : nat }.

Section Doc.
Context {I P : Type}.
Notation items := (list (item I P)).
Variable c : cfg.

(* all callbacks, in order *)
Definition on (e : event) : items := map (fun k => Call k e) (c_cbs c).
Definition doc_mu : items :=
  [Generated (c_mu_bs c)] ++ on MuBatchBegin ++ [Crossed; Scattered] ++ on ScatterEnd ++ [Added] ++ on MuBatchEnd.
Definition doc_vol (v : vol I P) : items :=
  [Loaded (v_item v)] ++ on VolumeBegin ++ [NewInferrer] ++ concat (repeat doc_mu (c_n_mu c / c_mu_bs c))
  ++ on X0PredBegin ++ [Predicted (v_pred v)] ++ on X0PredEnd ++ match v_loss v with Some l => [Loss l] | None => [] end ++ on VolumeEnd.
Definition losses (vs : list (vol I P)) : list R := flat_map (fun v => match v_loss v with Some l => [l] | None => [] end) vs.
(* the loss of a batch: the sum over the volumes with a loss, divided by the batch size; none if no volume has one *)
Definition mean_loss (vs : list (vol I P)) : option R :=
  match losses vs with [] => None | _ => Some (Rsum (losses vs) / INR (c_bs c)) end.
Definition doc_update (skip : bool) (m : option R) : items :=
  [ZeroGrad] ++ on BackwardsBegin ++ match m with Some l => [Backward l] | None => [] end ++ on BackwardsEnd
  ++ (if skip then [] else match m with Some _ => [Step] | None => [] end) ++ on StepEnd ++ [Conform].
Definition doc_end (train skip : bool) (vs : list (vol I P)) : items :=
  [Mean (mean_loss vs)] ++ on VolumeBatchEnd ++ (if train then doc_update skip (mean_loss vs) else []).
Definition doc_batch (train skip : bool) (vs : list (vol I P)) : items :=
  on VolumeBatchBegin ++ flat_map doc_vol vs ++ doc_end train skip vs.
(* an epoch: full batches, and volumes of a batch that is never completed *)
Record scan := Scan { sc_batches : list (list (vol I P)); sc_rest : list (vol I P) }.
Definition doc_scan (train skip : bool) (s : scan) : items :=
  flat_map (doc_batch train skip) (sc_batches s) ++ match sc_rest s with [] => [] | _ => on VolumeBatchBegin ++ flat_map doc_vol (sc_rest s) end.
(* n volumes: as many full batches as there are, and the rest only if there is no full batch *)
Definition scan_shape (n : nat) (s : scan) : Prop :=
  length (sc_batches s) = (n / c_bs c)%nat /\ Forall (fun vs => length vs = c_bs c) (sc_batches s) /\
  length (sc_rest s) = if (n <? c_bs c)%nat then n else 0%nat.
Definition scan_vols (s : scan) : list (vol I P) := concat (sc_batches s) ++ sc_rest s.

(* one epoch: training, and validation if asked for *)
Record epoch := Epoch { ep_skip : bool; ep_train : scan; ep_valid : option scan }.
Definition doc_run (train skip : bool) (s : scan) : items := on EpochBegin ++ doc_scan train skip s ++ on EpochEnd.
Definition doc_epoch (x : epoch) : items :=
  [SetTrain] ++ doc_run true (ep_skip x) (ep_train x) ++ match ep_valid x with Some v => [SetEval] ++ doc_run false (ep_skip x) v | None => [] end.
Definition doc_fit (xs : list epoch) : items :=
  on SetWrapper ++ on TrainBegin ++ flat_map doc_epoch xs ++ on TrainEnd.
Definition doc_predict (vs : list (vol I P)) : items :=
  on SetWrapper ++ [SetEval] ++ on PredBegin ++ flat_map doc_vol vs ++ on PredEnd.
Definition epoch_shape (validate : bool) (n_trn n_val : nat) (x : epoch) : Prop :=
  scan_shape n_trn (ep_train x) /\ match ep_valid x with Some v => validate = true /\ scan_shape n_val v | None => validate = false end.
Definition epoch_vols (x : epoch) : list (vol I P) :=
  scan_vols (ep_train x) ++ match ep_valid x with Some v => scan_vols v | None => [] end.
End Doc.
Arguments scan : clear implicits. Arguments epoch : clear implicits.
Arguments Scan {I P}. Arguments Epoch {I P}.

(* a volume has a loss if and only if there is a loss function and a prediction *)
Definition loss_iff {I P} (has : bool) (v : vol I P) : Prop :=
  (v_loss v <> None) <-> (has = true /\ v_pred v <> None).

(* what callbacks were called, in order *)
Definition events {I P} (l : list (item I P)) : list (nat * event) :=
  flat_map (fun i => match i with Call k e => [(k, e)] | _ => [] end) l.
(* the trace without its data and without what depends on the data *)
Definition skeleton {I P} (l : list (item I P)) : list (item unit unit) :=
  flat_map (fun i => match i with
    | Call k e => [Call k e] | SetTrain => [SetTrain] | SetEval => [SetEval] | Loaded _ => [Loaded tt] | NewInferrer => [NewInferrer]
    | Generated n => [Generated n] | Crossed => [Crossed] | Scattered => [Scattered] | Added => [Added] | Predicted _ => [Predicted None]
    | Mean _ => [Mean None] | ZeroGrad => [ZeroGrad] | Conform => [Conform] | Loss _ | Backward _ | Step => [] end) l.
Definition count {I P} (p : item I P -> bool) (l : list (item I P)) : nat := length (filter p l).
Definition is_step {I P} (i : item I P) : bool := match i with Step => true | _ => false end.
Definition is_zero {I P} (i : item I P) : bool := match i with ZeroGrad => true | _ => false end.
Definition is_loaded {I P} (i : item I P) : bool := match i with Loaded _ => true | _ => false end.
Definition is_conform {I P} (i : item I P) : bool := match i with Conform => true | _ => false end.

(* volumes, epochs without data *)
Definition blank : vol unit unit := Vol tt None None.
Definition blank_scan (b n : nat) : scan unit unit :=
  Scan (repeat (repeat blank b) (n / b)) (if (n <? b)%nat then repeat blank n else []).
Definition blank_epoch (validate : bool) (b n_trn n_val : nat) : epoch unit unit :=
  Epoch true (blank_scan b n_trn) (if validate then Some (blank_scan b n_val) else None).

Definition prefix {A} (l m : list A) : Prop := exists r, m = l ++ r.

(* callbacks that leave alone what the loop relies on: they may raise, and may change anything outside fit_params,
   fit_params.stop and volume_id, and replace a prediction by another one; only outside the scan of the volumes may they change skip_opt_step *)
Definition sets_skip (e : event) : bool :=
  match e with SetWrapper | TrainBegin | EpochBegin | EpochEnd | TrainEnd | PredBegin | PredEnd => true | _ => false end.
Definition tame {W I P} (E : env W I P) (cbs : list nat) : Prop :=
  forall k e f w f' w', In k cbs -> e_cb E k e (f, w) = (Ok tt, (f', w')) ->
    f_state f' = f_state f /\ f_epoch f' = f_epoch f /\ f_loss f' = f_loss f /\ f_mean f' = f_mean f /\ (f_pred f' = None <-> f_pred f = None) /\
    f_passive_bs f' = f_passive_bs f /\ f_n_mu f' = f_n_mu f /\ f_mu_bs f' = f_mu_bs f /\ f_n_epochs f' = f_n_epochs f /\
    (sets_skip e = false -> f_skip f' = f_skip f).
#[export] Hint Resolve iff_refl : core.
Definition has_loss {W I P} (E : env W I P) : bool := match e_loss E with Some _ => true | None => false end.
(* callbacks that neither stop the run nor skip updates *)
Definition calm {W I P} (E : env W I P) (cbs : list nat) : Prop :=
  forall k e f w r f' w', In k cbs -> e_cb E k e (f, w) = (r, (f', w')) -> f_skip f' = f_skip f /\ f_stop f' = f_stop f.

(* the part of the environment behind a trace item *)
Definition op {W I P} (E : env W I P) (i : item I P) : option (W -> res unit * W) :=
  match i with
  | SetTrain => Some (e_train E) | SetEval => Some (e_eval E) | Loaded x => Some (e_load E x) | NewInferrer => Some (e_inferrer E)
  | Generated n => Some (e_generate E n) | Crossed => Some (e_cross E) | Scattered => Some (e_scatter E) | Added => Some (e_add E)
  | ZeroGrad => Some (e_zero_grad E) | Backward l => Some (e_backward E l) | Step => Some (e_step E) | Conform => Some (e_conform E)
  | _ => None
  end.
(* the item was carried out without raising: there is a state in which it does not raise *)
Definition succeeds {W I P} (E : env W I P) (i : item I P) : Prop :=
  match i with
  | Call k e => exists x y, e_cb E k e x = (Ok tt, y)
  | _ => match op E i with Some g => exists w w', g w = (Ok tt, w') | None => True end
  end.

(* how many volumes are scanned of n, with batches of b *)
Definition scanned (n b : nat) : nat := if (n <? b)%nat then n else (n / b * b)%nat.
(* does a batch have a loss *)
Definition has_mean {I P} (vs : list (vol I P)) : nat := match losses vs with [] => 0%nat | _ => 1%nat end.
(* the losses of the batches, and those that were propagated back *)
Definition means {I P} (l : list (item I P)) : list (option R) := flat_map (fun i => match i with Mean m => [m] | _ => [] end) l.
Definition backs {I P} (l : list (item I P)) : list R := flat_map (fun i => match i with Backward m => [m] | _ => [] end) l.
(* predictions that were made *)
Definition predictions {I P} (l : list (item I P)) : list (option P) := flat_map (fun i => match i with Predicted p => [p] | _ => [] end) l.
