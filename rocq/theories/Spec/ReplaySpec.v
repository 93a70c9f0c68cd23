(* Following callbacks through the trace of a fit. *)
From Verif Require Import Base.RUtil Model.Fit Model.CbView Spec.FitSpec Spec.PredSpec.
Open Scope list_scope.

Section R.
Context {W I P S : Type}.
Definition view_of (obs : W -> S) (f : fp P) (w : W) : view S :=
  View (f_state f) (f_epoch f) (f_skip f) (f_n_epochs f) (f_passive_bs f) (obs w).
(* the callbacks react to events as m says, as far as can be seen through obs, and nothing but callbacks changes what is seen *)
Definition follows (E : env W I P) (cbs : list nat) (obs : W -> S) (m : nat -> reaction S) : Prop :=
  (forall k e f w f' w', In k cbs -> e_cb E k e (f, w) = (Ok tt, (f', w')) -> m k e (view_of obs f w) = Ok (f_skip f', obs w')) /\
  (forall i g, op E i = Some g -> forall w w', g w = (Ok tt, w') -> obs w' = obs w) /\
  (forall d i w x w', e_next E d i w = (Ok x, w') -> obs w' = obs w) /\
  (forall w x w', e_predict E w = (Ok x, w') -> obs w' = obs w) /\
  (forall f p w x w', e_loss E = Some f -> f p w = (Ok x, w') -> obs w' = obs w) /\
  (forall w w', e_mkdir E w = (Ok tt, w') -> obs w' = obs w).
(* what is seen after a trace *)
Definition replay1 (m : nat -> reaction S) (v : view S) (i : item I P) : view S :=
  match i with
  | SetTrain => View (Some Train) (Datatypes.S (vw_epoch v)) (vw_skip v) (vw_n_epochs v) (vw_bs v) (vw_st v)
  | SetEval => View (Some Valid) (vw_epoch v) (vw_skip v) (vw_n_epochs v) (vw_bs v) (vw_st v)
  | Call k e => match m k e v with Ok (b, s) => View (vw_mode v) (vw_epoch v) b (vw_n_epochs v) (vw_bs v) s | Err _ => v end
  | _ => v
  end.
Definition replay (m : nat -> reaction S) (v : view S) (l : list (item I P)) : view S := fold_left (replay1 m) l v.
(* none of the callbacks called in a trace raises *)
Definition quiet1 (m : nat -> reaction S) (v : view S) (i : item I P) : Prop := match i with Call k e => exists x, m k e v = Ok x | _ => True end.
Fixpoint quiet (m : nat -> reaction S) (v : view S) (l : list (item I P)) : Prop :=
  match l with [] => True | i :: l => quiet1 m v i /\ quiet m (replay1 m v i) l end.
(* the trace up to the training scan of epoch i *)
Definition upto (c : cfg) (xs : list (epoch I P)) (i : nat) : list (item I P) :=
  on c SetWrapper ++ on c TrainBegin ++ flat_map (doc_epoch c) (firstn i xs) ++ [SetTrain] ++ on c EpochBegin.
(* at the start of a fit *)
Definition fresh (n bs : nat) (s : S) : view S := View None 0 false (Some n) (Some bs) s.
End R.
(* while the volumes of training epoch i are scanned *)
Definition during {I P} (c : cfg) (xs : list (epoch I P)) (i : nat) (t : list (item I P)) : Prop :=
  exists x l, nth_error xs i = Some x /\ prefix l (doc_scan c true (ep_skip x) (ep_train x)) /\ t = upto c xs i ++ l.
