(* C101: the linear correction of the ladle-furnace predictions. *)
From Coq Require Import Lia Lra NArith.
From Verif Require Import Base.RUtil Model.Fit Model.LinCorr Spec.FitSpec Spec.LinCorrSpec Proofs.FitP Proofs.FitAll Proofs.LinCorrP Properties.FitProps.
Open Scope R_scope.
Open Scope list_scope.

(* C101. LinearCorrectionCallback anywhere in the list of a fit that ends normally, with any optimiser: the volumes of a training batch are all
   judged with one and the same correction, which is then trained once on exactly the uncorrected predictions of that batch, each with its own
   target; a rest of volumes that fills no batch, and the validation, are judged with the correction as it then is and leave it alone; and every
   volume has a prediction. *)
Theorem C101_fit :
  forall S W I (opt : R * R -> S -> R * R -> (R * R) * S) (target : W -> option R) (want : I -> option R) (judge : R -> option R -> R -> Prop)
    (E : env W I R) h c1 c2 n_epochs bs n_mu mu_bs validate fp w l0 d0 cbs' a' tr,
  ~ In h c1 -> ~ In h c2 -> tame E (c1 ++ c2) -> steady E (c1 ++ c2) target want judge -> (0 < bs)%nat ->
  fit (with_corr opt target E h) n_epochs bs n_mu mu_bs validate (c1 ++ h :: c2) (Wrapper fp (w, Corr l0 d0)) = (Ok cbs', a', tr) ->
  let c := Cfg (c1 ++ h :: c2) bs n_mu mu_bs in
  exists xs, tr = doc_fit c xs /\ (length xs <= n_epochs)%nat /\ Forall (epoch_shape c validate (e_len E TrnData) (e_len E ValData)) xs /\
    corr_epochs (corr_train opt) want judge l0 xs (c_lin (snd (w_w a'))).
Proof.
  intros S W I opt target want judge E h c1 c2 n bs n_mu mu_bs validate fp w l0 d0 cbs' a' tr N1 N2 HT K Hb H c.
  destruct (C41_order _ _ _ _ _ _ _ _ _ _ _ _ _ _ (tame_corr opt target E h c1 c2 HT) Hb H) as (xs & Ht & L & _ & _ & F & _). fold c in Ht, F.
  exists xs. split; [exact Ht|]. split; [exact L|]. split; [exact F|].
  unfold fit in H. cbn [w_w with_corr e_mkdir lift_c fst snd] in H. unfold lift_c in H. cbn [fst snd] in H. destruct (e_mkdir E w) as [[[]|e] w1]; [|discriminate].
  destruct (fit_body _ _ validate _) as [r s] eqn:EB. destruct r as [[]|e]; [|discriminate]. injection H as <- <- <-.
  assert (Hi : inv opt target want judge h l0 d0 None None false false true s).
  { refine (inv_body opt target want judge E h c1 c2 N1 N2 HT K l0 d0 None validate _ _ _ EB _). unfold inv. cbn. repeat (split; [auto; try discriminate|]). discriminate. }
  destruct Hi as (Ho & Hc & _). rewrite Ht in Ho, Hc. cbn [w_w]. rewrite Hc. cbn [c_lin]. now apply (fit_run opt want judge h c1 c2 N1 N2).
Qed.
Print Assumptions C101_fit.

(* two volumes whose prediction is p, batches of one, a loss that is the prediction itself, an optimiser that sets weight 0 and bias 5 *)
Definition plain (p : option R) (t : option R) : env nat nat R :=
  Fit.Env (fun _ _ x => (Ok tt, x)) (fun _ => 2%nat) (fun _ i w => (Ok i, w)) (fun _ w => (Ok tt, w)) (fun w => (Ok tt, w)) (fun _ w => (Ok tt, w))
    (fun w => (Ok tt, w)) (fun w => (Ok tt, w)) (fun w => (Ok tt, w)) (fun w => (Ok p, w)) (Some (fun q w => (Ok q, w))) (fun w => (Ok tt, w)) (fun _ w => (Ok tt, w))
    (fun w => (Ok tt, w)) (fun w => (Ok tt, w)) (fun w => (Ok tt, w)) (fun w => (Ok tt, w)) (fun w => (Ok tt, w)) (fun w => w).
Definition to_five (g : R * R) (s : unit) (p : R * R) : (R * R) * unit := ((0, 5), s).
Lemma plain_tame p t : tame (plain p t) [0; 1]%nat.
Proof. intros k e f w f' w' _ [= <- <-]. auto 12. Qed.
Lemma plain_steady p t : steady (plain p t) [0; 1]%nat (fun _ => t) (fun _ => t) (fun p _ x => x = p).
Proof. constructor; try reflexivity; [intros k e f w f' w' _ [= <- <-]; auto|]. intros g q w x w' [= <-] [= <- <-]. auto. Qed.
Example C101_case : forall p t,
  let '(r, a', tr) := fit (with_corr to_five (fun _ => Some t) (plain (Some p) (Some t)) 7) 1 1 5 5 true [0; 7; 1]%nat (Wrapper None (0%nat, Corr (Lin 1 0 tt) None)) in
  r = Ok [0; 7; 1]%nat /\ c_lin (snd (w_w a')) = Lin 0 5 tt /\ c_data (snd (w_w a')) = Some [(p, t)] /\
  filter (fun i => match i with Loss _ => true | _ => false end) tr = [Loss (1 * p + 0); Loss (0 * p + 5); Loss (0 * p + 5); Loss (0 * p + 5)].
Proof. intros p t. vm_compute. auto. Qed.
(* the hypotheses hold for it *)
Example C101_case_hyps : forall p t, ~ In 7%nat [0%nat] /\ ~ In 7%nat [1%nat] /\ tame (plain p t) ([0] ++ [1])%nat /\ steady (plain p t) ([0] ++ [1])%nat (fun _ => t) (fun _ => t) (fun p _ x => x = p).
Proof. intros p t. split; [cbn; intuition discriminate|]. split; [cbn; intuition discriminate|]. split; [apply plain_tame|apply plain_steady]. Qed.

(* C101. A volume without a prediction ends a fit that would have ended normally without the callback. *)
Theorem C101_no_prediction_refuted :
  exists S W I (opt : R * R -> S -> R * R -> (R * R) * S) (target : W -> option R) (want : I -> option R) (judge : R -> option R -> R -> Prop)
    (E : env W I R) h cbs n_epochs bs n_mu mu_bs w l0 a1 a2 tr1 tr2,
  tame E cbs /\ steady E cbs target want judge /\ (0 < bs)%nat /\ (forall x, want x <> None) /\
  fit E n_epochs bs n_mu mu_bs true cbs (Wrapper None w) = (Ok cbs, a1, tr1) /\
  fit (with_corr opt target E h) n_epochs bs n_mu mu_bs true (cbs ++ [h]) (Wrapper None (w, Corr l0 None)) = (Err AttributeError, a2, tr2) /\
  fit (with_corr opt target E h) n_epochs bs n_mu mu_bs false (cbs ++ [h]) (Wrapper None (w, Corr l0 None)) = (Err AttributeError, a2, tr2).
Proof.
  exists unit, nat, nat, (sgd 1), (fun _ => Some 0), (fun _ => Some 0), (fun p _ x => x = p), (plain None (Some 0)), 7%nat, [0; 1]%nat, 1%nat, 1%nat, 5%nat, 5%nat, 0%nat, (Lin 1 0 tt).
  do 4 eexists. split; [apply plain_tame|]. split; [apply plain_steady|]. split; [lia|]. split; [discriminate|]. split; [vm_compute; reflexivity|]. split; vm_compute; reflexivity.
Qed.
Print Assumptions C101_no_prediction_refuted.

(* C101. With plain gradient descent and a learning rate up to 1 / (1 + mean of the squared predictions), training on a batch never makes the mean
   squared error of the corrected predictions of that batch larger. *)
Theorem C101_descent :
  forall lr d (l : lin unit), 0 <= lr -> d <> [] -> lr * (mean_sq d + 1) <= 1 ->
  let l' := corr_train (sgd lr) d l in line_mse (l_w l') (l_b l') d <= line_mse (l_w l) (l_b l) d.
Proof. intros lr d l H0 Hd Hl. unfold corr_train. generalize (iter_le lr d 10000 l H0 Hd Hl). unfold fl. generalize 10000%N. auto. Qed.
Print Assumptions C101_descent.
Example C101_descent_case : 0 <= 1 / 4 /\ [(1, 3); (1, 5)] <> [] /\ 1 / 4 * (mean_sq [(1, 3); (1, 5)] + 1) <= 1.
Proof. split; [lra|]. split; [discriminate|]. unfold mean_sq. cbn. unfold Rsqr. lra. Qed.
(* C101. If the learning rate is smaller than that, training leaves exactly the best lines alone, and makes the error of any other line smaller. *)
Theorem C101_best :
  forall lr d (l : lin unit), 0 < lr -> d <> [] -> lr * (mean_sq d + 1) < 1 ->
  let l' := corr_train (sgd lr) d l in
  ((forall w b, line_mse (l_w l) (l_b l) d <= line_mse w b d) -> l' = l) /\
  (~ (forall w b, line_mse (l_w l) (l_b l) d <= line_mse w b d) -> line_mse (l_w l') (l_b l') d < line_mse (l_w l) (l_b l) d).
Proof.
  intros lr d l H0 Hd Hl l'. pose proof (min_grad d l Hd) as Hm. split.
  - intros Hb. subst l'. unfold corr_train. apply iter_fix. now apply Hm.
  - intros Hb. assert (Hg : 0 < grad2 (mse_grad l d)).
    { destruct (Rlt_dec 0 (grad2 (mse_grad l d))) as [Hg|Hg]; [exact Hg|]. exfalso. apply Hb. apply Hm. now apply grad2_zero. }
    assert (Hn : 10000%N <> 0%N) by discriminate. subst l'. unfold corr_train. revert Hn. generalize 10000%N. intros n Hn. exact (iter_lt lr d n l Hn H0 Hd Hl Hg).
Qed.
Print Assumptions C101_best.
(* the line 4 through (1, 3) and (1, 5) is a best one, the line 0 is not *)
Example C101_best_case : 1 / 4 * (mean_sq [(1, 3); (1, 5)] + 1) < 1 /\ (forall w b, line_mse 0 4 [(1, 3); (1, 5)] <= line_mse w b [(1, 3); (1, 5)]) /\ ~ (forall w b, line_mse 0 0 [(1, 3); (1, 5)] <= line_mse w b [(1, 3); (1, 5)]).
Proof.
  unfold mean_sq, line_mse. cbn. unfold Rsqr. split; [lra|]. split.
  - intros w b. pose proof (Rle_0_sqr (w + b - 4)). unfold Rsqr in *. lra.
  - intros H. specialize (H 0 4). lra.
Qed.
(* C101. With a larger learning rate it makes the error larger. *)
Theorem C101_diverges_refuted :
  exists lr d (l : lin unit), 0 < lr /\ d <> [] /\ let l' := corr_train (sgd lr) d l in line_mse (l_w l) (l_b l) d < line_mse (l_w l') (l_b l') d.
Proof. exists 1, [(1, 0)], (Lin 1 0 tt). split; [lra|]. split; [discriminate|]. 
  assert (Hn : 10000%N <> 0%N) by discriminate. unfold corr_train. revert Hn. generalize 10000%N. intros n Hn. apply (iter_up n (Lin 1 0 tt) Hn). cbn. unfold Rsqr. lra.
Qed.
Print Assumptions C101_diverges_refuted.
