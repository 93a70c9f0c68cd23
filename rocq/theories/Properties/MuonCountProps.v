(* C111: every scanned volume gets the same number of muons: as many full batches as fit into the number asked for. *)
From Coq Require Import List Lia.
From Verif Require Import Base.RUtil Model.Fit Model.PredCb Spec.FitSpec Spec.MuonCountSpec Proofs.FitP Proofs.FitAll Proofs.FitCount Proofs.MuonCountP Properties.FitProps.
Import ListNotations.
Open Scope list_scope.

(* C111. A fit that ends normally has sent n_mu muons through each volume it loaded, rounded down to full batches. *)
Theorem C111_fit :
  forall W I P (E : env W I P) n_epochs bs n_mu mu_bs validate cbs a cbs' a' tr,
  tame E cbs -> (0 < bs)%nat -> fit E n_epochs bs n_mu mu_bs validate cbs a = (Ok cbs', a', tr) ->
  muons tr = (count is_loaded tr * (n_mu / mu_bs * mu_bs))%nat.
Proof.
  intros W I P E n_epochs bs n_mu mu_bs validate cbs a cbs' a' tr HT Hb H. destruct (C41_order _ _ _ _ _ _ _ _ _ _ _ _ _ _ HT Hb H) as (xs & -> & _).
  exact (proj1 (fair_fit (Cfg cbs bs n_mu mu_bs) xs)).
Qed.
Print Assumptions C111_fit.

(* C111. However a fit ends, and at no moment of it, has it sent more. *)
Theorem C111_never_more :
  forall W I P (E : env W I P) n_epochs bs n_mu mu_bs validate cbs a r a' tr,
  tame E cbs -> (0 < bs)%nat -> fit E n_epochs bs n_mu mu_bs validate cbs a = (r, a', tr) ->
  forall p, prefix p tr -> (muons p <= count is_loaded p * (n_mu / mu_bs * mu_bs))%nat.
Proof.
  intros W I P E n_epochs bs n_mu mu_bs validate cbs a r a' tr HT Hb H p [q Hp]. destruct (C41_order_always _ _ _ _ _ _ _ _ _ _ _ _ _ _ HT Hb H) as (e & _ & [t Ht]).
  destruct (skel_muons p) as [<- <-]. apply (proj2 (fair_fit (Cfg cbs bs n_mu mu_bs) (repeat (blank_epoch validate bs (e_len E TrnData) (e_len E ValData)) e))).
  exists (skeleton q ++ t). rewrite app_assoc, <- skel_app, <- Hp. exact Ht.
Qed.
Print Assumptions C111_never_more.

(* C111. The same for predict, however it ends. *)
Theorem C111_predict :
  forall W I P A (E : env W I P) (get : W -> A) n_mu mu_bs h cbs a r a' cbs' tr,
  tame E (cbs ++ [h]) -> predict E get n_mu mu_bs h cbs a = (r, a', cbs', tr) ->
  (forall p, prefix p tr -> (muons p <= count is_loaded p * (n_mu / mu_bs * mu_bs))%nat)
  /\ (forall x, r = Ok x -> muons tr = (e_len E TstData * (n_mu / mu_bs * mu_bs))%nat).
Proof.
  intros W I P A E get n_mu mu_bs h cbs a r a' cbs' tr HT H. unfold predict in H. destruct (predict_body E (cbs ++ [h]) _) as [r' s] eqn:EB. injection H as <- _ _ <-. set (c := Cfg (cbs ++ [h]) 0 n_mu mu_bs).
  destruct ((fun h1 h2 h3 => predict_body_spec E c HT _ _ _ h1 h2 h3 EB) (conj eq_refl eq_refl) eq_refl eq_refl) as [[t Ht] Hk]. split.
  - intros p [q Hp]. destruct (skel_muons p) as [<- <-]. apply (proj2 (fair_predict c (repeat blank (e_len E TstData)))). exists (skeleton q ++ t). rewrite app_assoc, <- skel_app, <- Hp. exact Ht.
  - intros x Hx. destruct r' as [[]|]; [|discriminate]. destruct (Hk eq_refl) as (vs & L & _ & ->). rewrite (proj1 (fair_predict c vs)), <- L. f_equal. unfold doc_predict. rewrite !loaded_app, !loaded_on, vols_loaded. cbn. lia.
Qed.
Print Assumptions C111_predict.

(* C111. With fewer muons asked for than there are in a batch, no muon is sent, nothing is predicted and the detector is never
   updated, silently or however the fit ends. *)
Theorem C111_less_than_a_batch :
  forall W I P (E : env W I P) unused n_epochs bs n_mu mu_bs validate cbs a r a' tr,
  tame E cbs -> honest E cbs unused -> (n_mu < mu_bs)%nat ->
  fit E n_epochs bs n_mu mu_bs validate cbs a = (r, a', tr) -> predicts_nothing tr.
Proof.
  intros W I P E unused n_epochs bs n_mu mu_bs validate cbs a r a' tr HT HH Hn H. unfold fit in H. destruct (e_mkdir E (w_w a)) as [[[]|e] w].
  - destruct (fit_body E cbs validate _) as [r' s] eqn:EB. injection H as _ _ <-.
    refine (proj1 (body_safe E cbs unused n_mu mu_bs HT HH Hn validate (fun _ => True) _ _ _ _ Logic.I _ EB)); [repeat split|intros i []].
  - injection H as _ _ <-. intros i [].
Qed.
Print Assumptions C111_less_than_a_batch.
Theorem C111_predict_less_than_a_batch :
  forall W I P A (E : env W I P) unused (get : W -> A) n_mu mu_bs h cbs a r a' cbs' tr,
  tame E (cbs ++ [h]) -> honest E (cbs ++ [h]) unused -> (n_mu < mu_bs)%nat ->
  predict E get n_mu mu_bs h cbs a = (r, a', cbs', tr) -> predicts_nothing tr.
Proof.
  intros W I P A E unused get n_mu mu_bs h cbs a r a' cbs' tr HT HH Hn H. unfold predict in H. destruct (predict_body E (cbs ++ [h]) _) as [r' s] eqn:EB. injection H as _ _ _ <-.
  refine (proj1 (pred_safe E (cbs ++ [h]) unused n_mu mu_bs HT HH Hn (fun _ => True) _ _ _ _ Logic.I _ EB)); [repeat split|intros i []].
Qed.
Print Assumptions C111_predict_less_than_a_batch.

(* C111. So a number of muons that is not a multiple of the batch size is not reached: of 7 asked for, 5 are sent. *)
Theorem C111_remainder_refuted :
  exists W I P (E : env W I P) n_epochs bs n_mu mu_bs validate cbs a cbs' a' tr,
  tame E cbs /\ (0 < bs)%nat /\ fit E n_epochs bs n_mu mu_bs validate cbs a = (Ok cbs', a', tr) /\ (0 < count is_loaded tr)%nat /\ (muons tr < count is_loaded tr * n_mu)%nat.
Proof.
  exists nat, nat, nat, (demo quiet_cb 2 1 0 (Some 4%nat)), 1%nat, 1%nat, 7%nat, 5%nat, true, [0%nat], (Wrapper None 0%nat). do 3 eexists. split; [apply quiet_tame|]. split; [lia|]. split; [vm_compute; reflexivity|].
  vm_compute. lia.
Qed.
Print Assumptions C111_remainder_refuted.

(* a world that counts the muons of the inferrer, which predicts only if it has some *)
Definition counting : env nat nat nat :=
  Fit.Env quiet_cb (fun _ => 3%nat) (fun _ i => nop i) (fun _ => nop tt) (fun _ => (Ok tt, 0%nat)) (fun _ => nop tt) (nop tt) (nop tt) (fun w => (Ok tt, S w))
    (fun w => (Ok (match w with O => None | _ => Some w end), w)) (Some (fun p => nop (INR p))) (nop tt) (fun _ => nop tt) (nop tt) (nop tt) (nop tt) (nop tt) (nop tt) (fun w => w).
Example C111_case :
  tame counting [0; 1]%nat /\ honest counting [0; 1]%nat (fun w => w = 0%nat)
  /\ (let '(r, _, tr) := fit counting 2 1 3 5 true [0; 1]%nat (Wrapper None 7%nat) in r = Ok [0; 1]%nat /\ count is_loaded tr = 12%nat /\ muons tr = 0%nat)
  /\ (let '(r, _, tr) := fit counting 2 1 13 5 true [0; 1]%nat (Wrapper None 7%nat) in r = Ok [0; 1]%nat /\ count is_step tr = 6%nat /\ muons tr = 120%nat).
Proof.
  split; [intros k e f w f' w' _ [= <- <-]; auto 12|]. split; [split; [intros w w' [= <-]; reflexivity|split; [intros k e f w f' w' _ Hw [= _ <-]; exact Hw|intros w p w' -> [= <- _]; reflexivity]]|].
  split; vm_compute; auto.
Qed.
