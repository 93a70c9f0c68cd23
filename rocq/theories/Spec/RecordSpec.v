(* What a recorder must have seen. *)
From Verif Require Export Model.Record Spec.FitSpec.
Open Scope list_scope.

Definition is_scattered {I P} (i : item I P) : bool := match i with Scattered => true | _ => false end.
(* seen: all scatter batches that were ever made, as the recorder looks at them.  Only the scatter inferrer makes one, and callbacks leave it as it is *)
Record keeps {W I P D} (E : env W I P) (cbs : list nat) (look : W -> res D) (seen : W -> list D) : Prop := Keeps {
  ks_scatter : forall w w', e_scatter E w = (Ok tt, w') -> exists d, look w' = Ok d /\ seen w' = seen w ++ [d];
  ks_failed : forall w w' e, e_scatter E w = (Err e, w') -> seen w' = seen w;
  ks_op : forall i g w r w', op E i = Some g -> is_scattered i = false -> g w = (r, w') -> seen w' = seen w;
  ks_cb : forall k e f w r f' w', In k cbs -> e_cb E k e (f, w) = (r, (f', w')) -> seen w' = seen w /\ (e = ScatterEnd -> look w' = look w);
  ks_next : forall d i w r w', e_next E d i w = (r, w') -> seen w' = seen w;
  ks_predict : forall w r w', e_predict E w = (r, w') -> seen w' = seen w;
  ks_loss : forall f p w r w', e_loss E = Some f -> f p w = (r, w') -> seen w' = seen w;
  ks_mkdir : forall w r w', e_mkdir E w = (r, w') -> seen w' = seen w;
  ks_no_shuffle : forall w, seen (e_no_shuffle E w) = seen w }.
