(* What EpochSave must write. *)
From Verif Require Export Model.Saver Spec.FitSpec.
Open Scope list_scope.

(* a counter of updates: every step of the optimisers adds one and nothing else changes it *)
Definition counts_steps {W I P} (E : env W I P) (cbs : list nat) (ver : W -> nat) : Prop :=
  (forall w w', e_step E w = (Ok tt, w') -> ver w' = S (ver w)) /\
  (forall i g w w', op E i = Some g -> is_step i = false -> g w = (Ok tt, w') -> ver w' = ver w) /\
  (forall k e f w f' w', In k cbs -> e_cb E k e (f, w) = (Ok tt, (f', w')) -> ver w' = ver w) /\
  (forall d i w x w', e_next E d i w = (Ok x, w') -> ver w' = ver w) /\
  (forall w x w', e_predict E w = (Ok x, w') -> ver w' = ver w) /\
  (forall f p w x w', e_loss E = Some f -> f p w = (Ok x, w') -> ver w' = ver w) /\
  (forall w w', e_mkdir E w = (Ok tt, w') -> ver w' = ver w).
(* what is saved changes in the update of the detector only: from zeroing the gradients to conforming *)
Definition in_update {I P} (i : item I P) : bool :=
  match i with
  | ZeroGrad | Backward _ | Step | Conform | Call _ BackwardsBegin | Call _ BackwardsEnd | Call _ StepEnd => true
  | _ => false
  end.
Definition changes_in_update {W I P D} (E : env W I P) (cbs : list nat) (snap : W -> D) : Prop :=
  (forall i g w w', op E i = Some g -> in_update i = false -> g w = (Ok tt, w') -> snap w' = snap w) /\
  (forall k e f w f' w', In k cbs -> @in_update I P (Call k e) = false -> e_cb E k e (f, w) = (Ok tt, (f', w')) -> snap w' = snap w) /\
  (forall d i w x w', e_next E d i w = (Ok x, w') -> snap w' = snap w) /\
  (forall w x w', e_predict E w = (Ok x, w') -> snap w' = snap w) /\
  (forall f p w x w', e_loss E = Some f -> f p w = (Ok x, w') -> snap w' = snap w).
(* how many steps there are in the training of an epoch: one for each batch with a loss, unless updates are skipped *)
Definition steps_in {I P} (x : epoch I P) : nat := if ep_skip x then 0 else list_sum (map has_mean (sc_batches (ep_train x))).
(* an epoch begins *)
Definition is_begin {I P} (i : item I P) : bool := match i with SetTrain => true | _ => false end.
