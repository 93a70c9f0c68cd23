(* What LinearCorrectionCallback is to do in a fit. *)
From Verif Require Export Model.LinCorr Spec.FitSpec.
Open Scope R_scope.
Open Scope list_scope.

Section Spec.
Context {S I : Type}.
Variable train : list (R * R) -> lin S -> lin S.
Variable want : I -> option R.                       (* the target that comes with a layout *)
Variable judge : R -> option R -> R -> Prop.         (* what the loss function makes of a prediction and a target *)
(* a volume that was scanned while the correction was l: its loss is that of the corrected prediction *)
Definition judged (l : lin S) (v : vol I R) : Prop :=
  exists p, v_pred v = Some p /\ forall x, v_loss v = Some x -> judge (l_w l * p + l_b l) (want (v_item v)) x.
(* the uncorrected prediction with the target *)
Definition is_pair (v : vol I R) (q : R * R) : Prop := v_pred v = Some (fst q) /\ want (v_item v) = Some (snd q).
(* a training batch: all its volumes with the same correction, then that is trained on exactly these volumes *)
Definition corr_batch (l : lin S) (vs : list (vol I R)) (l' : lin S) : Prop :=
  Forall (judged l) vs /\ exists d, Forall2 is_pair vs d /\ l' = train d l.
Fixpoint corr_batches (l : lin S) (b : list (list (vol I R))) (l' : lin S) : Prop :=
  match b with [] => l' = l | vs :: b => exists m, corr_batch l vs m /\ corr_batches m b l' end.
(* an epoch: the volumes that do not fill a batch, and those of the validation, leave the correction as it is *)
Definition corr_epoch (l : lin S) (x : epoch I R) (l' : lin S) : Prop :=
  corr_batches l (sc_batches (ep_train x)) l' /\ Forall (judged l') (sc_rest (ep_train x)) /\
  match ep_valid x with Some v => Forall (judged l') (scan_vols v) | None => True end.
Fixpoint corr_epochs (l : lin S) (xs : list (epoch I R)) (l' : lin S) : Prop :=
  match xs with [] => l' = l | x :: xs => exists m, corr_epoch l x m /\ corr_epochs m xs l' end.
End Spec.

(* the world around it: loading a layout sets the target, nothing changes it during the scan, and the other callbacks leave predictions alone *)
Record steady {W I} (E : env W I R) (cbs : list nat) (target : W -> option R) (want : I -> option R) (judge : R -> option R -> R -> Prop) : Prop := Steady {
  sd_load : forall x w w', e_load E x w = (Ok tt, w') -> target w' = want x;
  sd_op : forall i g w w', op E i = Some g -> match i with NewInferrer | Generated _ | Crossed | Scattered | Added => True | _ => False end ->
            g w = (Ok tt, w') -> target w' = target w;
  sd_predict : forall w p w', e_predict E w = (Ok p, w') -> target w' = target w;
  sd_cb : forall k e f w f' w', In k cbs -> e_cb E k e (f, w) = (Ok tt, (f', w')) -> target w' = target w /\ f_pred f' = f_pred f;
  sd_loss : forall g p w x w', e_loss E = Some g -> g p w = (Ok x, w') -> judge p (target w) x /\ target w' = target w }.

(* mean squared error of a line w*x + b *)
Definition line_mse (w b : R) (d : list (R * R)) : R := Rsum (map (fun q => (w * fst q + b - snd q)²) d) / INR (length d).
Definition mean_sq (d : list (R * R)) : R := Rsum (map (fun q => (fst q)²) d) / INR (length d).
