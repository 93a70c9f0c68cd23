(* What classifiers built on X0 predictions are meant to do. *)
From Coq Require Import Reals List.
From Verif Require Import Model.X0Infer Model.Classify Spec.InferSpec.
From Verif Require Import Base.XR.
Open Scope R_scope.
Open Scope list_scope.

(* give the batches to a new classifier, then ask for its prediction *)
Definition scan_classify (bss : list (list smuon)) : list cop := map (fun ms => CAdd (Ok (view ms))) bss ++ [CPredict].
(* for each prediction asked for, the batches added before it *)
Fixpoint batches_before (ops : list cop) (bs : list (res sview)) : list (list (res sview)) :=
  match ops with
  | [] => []
  | CAdd v :: ops => batches_before ops (bs ++ [v])
  | CPredict :: ops => bs :: batches_before ops bs
  end.
(* efficiencies can be computed for the batches, one per muon *)
Definition effs_computed (eff_of : sview -> res (list xr)) (ops : list cop) : Prop :=
  forall v, In (CAdd (Ok v)) ops -> exists es, eff_of v = Ok es /\ length es = length (s_poca v).
(* a is below b, NaN being above everything *)
Definition under (a b : xr) : Prop := a <> NaN /\ (b = NaN \/ xlt a b = true).
(* how much a voxel of prediction x counts as background when the cut is at c *)
Definition background_weight (cut_coef c x : R) : R := 1 / (1 + exp (- (cut_coef * (x - c)))).
