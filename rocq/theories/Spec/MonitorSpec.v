(* What the validation loss of an epoch and its composition should be (C53). *)
From Coq Require Import String.
From Verif Require Import Base.RUtil Base.XR Model.Fit Model.Monitor Spec.FitSpec.
Open Scope R_scope.
Open Scope list_scope.

(* the sub-losses of an evaluation add up to its loss *)
Definition adds_up (d : list (string * R)) (l : R) : Prop := Rsum (map snd d) = l.
(* one of them for each evaluation *)
Definition all_add_up (ds : list (list (string * R))) (ls : list R) : Prop := Forall2 adds_up ds ls.
(* the part of an evaluation that is due to some of the sub-losses *)
Definition part (sel : string -> bool) (d : list (string * R)) : R := Rsum (map snd (filter (fun kv => sel (fst kv)) d)).
(* everything that is logged as a fraction for some of the sub-losses, in all epochs *)
Definition logged (sel : string -> bool) (d : list (string * list xr)) : list xr := concat (map snd (filter (fun kv => sel (fst kv)) d)).
Definition every (_ : string) : bool := true.
Fixpoint xsum (l : list xr) : xr := match l with [] => Fin 0 | x :: l => xadd x (xsum l) end.
(* the logged losses, one per batch; a batch without any prediction has an infinite one *)
Definition logged_loss {I P} (c : cfg) (vs : list (vol I P)) : xr := match mean_loss c vs with Some l => Fin l | None => PInf end.
Definition batch_losses {I P} (c : cfg) (s : scan I P) : list xr := map (logged_loss c) (sc_batches s).
(* the volumes of an epoch that have a loss *)
Definition scan_losses {I P} (s : scan I P) : list R := losses (scan_vols s).
Definition epoch_losses {I P} (x : epoch I P) : list R :=
  scan_losses (ep_train x) ++ match ep_valid x with Some v => scan_losses v | None => [] end.
(* every batch of an epoch has some prediction *)
Definition batches_seen {I P} (s : scan I P) : Prop := Forall (fun vs => losses vs <> []) (sc_batches s).
(* b is the smallest of the numbers and infinities in l; infinity if there are none *)
Definition smallest (b : xr) (l : list xr) : Prop :=
  b <> NaN /\ (forall x, In x l -> x <> NaN -> xle b x = true) /\ (b = PInf \/ In b l).
