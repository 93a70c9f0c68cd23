(* Property C96: predictions do not depend on the order of the muons nor on the batches they came in. *)
From Coq Require Import Lra Lia ZArith Permutation.
From Verif Require Import Model.X0Infer Spec.VolumeSpec Spec.InferSpec Proofs.InferStateP Proofs.CombineP Proofs.OrderP Proofs.EffP Proofs.UnseenP.
Open Scope R_scope.
Open Scope list_scope.

(* every muon was to pass two or more panels on each side; see C34 and C35 for others *)
Definition two_panels (bss : list (list smuon)) : Prop :=
  forall k, In k (concat bss) -> (2 <= List.length (k_above k))%nat /\ (2 <= List.length (k_below k))%nat.

(* C96. The prediction depends on the muons that can be used and on nothing else: not on their order, not on how they are divided into
   batches, not on the muons without usable variables among them.  If there is an exception, it is the same. *)
Theorem C96_usable :
  forall g cdf pred_unc bss bss', bss <> [] -> bss' <> [] -> two_panels bss -> two_panels bss' ->
  Permutation (filter all_numbers (concat bss)) (filter all_numbers (concat bss')) ->
  interact g cdf panel_efficiency pred_unc (scan bss) new_inf = interact g cdf panel_efficiency pred_unc (scan bss') new_inf.
Proof. intros g cdf pu bss bss' N N' H H' P. rewrite !scan_answer; auto. f_equal. now apply answer_perm. Qed.
Print Assumptions C96_usable.
Theorem C96_order :
  forall g cdf pred_unc bss bss', bss <> [] -> bss' <> [] -> two_panels bss -> Permutation (concat bss) (concat bss') ->
  interact g cdf panel_efficiency pred_unc (scan bss) new_inf = interact g cdf panel_efficiency pred_unc (scan bss') new_inf.
Proof.
  intros g cdf pu bss bss' N N' H P. apply C96_usable; auto; [|now apply kept_perm].
  intros k I. apply H. now apply (Permutation_in _ (Permutation_sym P)).
Qed.
Print Assumptions C96_order.

(* C96. Adding every muon a second time changes nothing: only the distribution of the muons counts, not their number. *)
Theorem C96_twice :
  forall g cdf pred_unc bss, two_panels bss ->
  interact g cdf panel_efficiency pred_unc (scan (bss ++ bss)) new_inf = interact g cdf panel_efficiency pred_unc (scan bss) new_inf.
Proof.
  intros g cdf pu bss H. destruct bss as [|b bss]; [reflexivity|]. rewrite !scan_answer; try discriminate; auto.
  - rewrite concat_app, filter_app. f_equal. apply answer_twice.
  - intros k I. rewrite concat_app, in_app_iff in I. apply H. tauto.
Qed.
Print Assumptions C96_twice.

(* two muons seen by two panels on each side, in one batch, and the other way round in two with one that could not be reconstructed *)
Example C96_case :
  let a := seen_muon 1 0 0 2 in let b := seen_muon (1/2) 0 0 3 in let lost := SMuon (NaN, NaN, NaN) (NaN, NaN, NaN) NaN NaN NaN NaN NaN NaN (Fin 1) [Fin 1; Fin 1] [Fin 1; Fin 1] in
  two_panels [[a; b]] /\ two_panels [[b]; [lost; a]] /\ Permutation (filter all_numbers (concat [[a; b]])) (filter all_numbers (concat [[b]; [lost; a]])).
Proof.
  intros a b lost. split; [|split].
  - intros k [<-|[<-|[]]]; cbn; lia.
  - intros k [<-|[<-|[<-|[]]]]; cbn; lia.
  - cbn. apply perm_swap.
Qed.

(* C96. A muon that no two panels of one side could have seen changes nothing, whatever its variables, as long as there are others. *)
Theorem C96_unseen :
  forall g cdf pred_unc bss bss' k a b, two_panels (bss ++ bss') -> filter all_numbers (concat (bss ++ bss')) <> [] ->
  panels_of k a b -> prob_two a = 0 \/ prob_two b = 0 -> all_numbers k = true -> poca_unc_ok k ->
  interact g cdf panel_efficiency pred_unc (scan (bss ++ [[k]] ++ bss')) new_inf = interact g cdf panel_efficiency pred_unc (scan (bss ++ bss')) new_inf.
Proof.
  intros g cdf pu bss bss' k a b H N (Ka & Kb & La & Lb & _ & _) Z A Q.
  assert (E : effic k = Fin 0).
  { unfold effic. rewrite Ka, Kb, muon_eff_spec by assumption. f_equal. destruct Z as [->| ->]; ring. }
  assert (N1 : bss ++ bss' <> []) by (intro Y; rewrite Y in N; now apply N).
  rewrite !scan_answer; auto.
  - f_equal. transitivity (answer g cdf (k :: filter all_numbers (concat (bss ++ bss')))); [|now apply answer_cons0].
    apply answer_perm. rewrite !concat_app, !filter_app. cbn [concat app filter]. rewrite A. symmetry. apply Permutation_middle.
  - intro Y. apply app_eq_nil in Y as [_ Y]. discriminate.
  - intros q I. rewrite !concat_app, !in_app_iff in I. destruct I as [I|[[<-|[]]|I]].
    + apply H. rewrite concat_app, in_app_iff. now left.
    + rewrite Ka, Kb, !map_length. auto.
    + apply H. rewrite concat_app, in_app_iff. now right.
Qed.
Print Assumptions C96_unseen.
Example C96_unseen_case :
  let k := SMuon (Fin 1, Fin (1/2), Fin 3) (Fin 0, Fin 0, Fin 0) (Fin 5) (Fin 0) (Fin 0) (Fin 0) (Fin 0) (Fin 0) (Fin 1) [Fin 1; Fin 0] [Fin 1; Fin 1] in
  let bss := [[seen_muon 1 0 0 2]] in
  two_panels bss /\ filter all_numbers (concat bss) <> [] /\ panels_of k [1; 0] [1; 1] /\ prob_two [1; 0] = 0 /\ all_numbers k = true /\ poca_unc_ok k.
Proof.
  intros k bss. split; [|split; [|split; [|split; [|split]]]].
  - intros q [<-|[]]. cbn. lia.
  - discriminate.
  - unfold panels_of. cbn. unfold probability. repeat split; try lia; repeat constructor; lra.
  - unfold prob_two, outcome_prob. cbn -[Rmult Rplus Rminus]. lra.
  - reflexivity.
  - cbn. lra.
Qed.
