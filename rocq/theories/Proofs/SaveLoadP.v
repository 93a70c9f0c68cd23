(* Proofs for C24. *)
From Coq Require Import Reals Lra Lia List Bool String Permutation.
From Verif Require Import Model.SaveLoad Spec.VolumeSpec Spec.SaveLoadSpec Proofs.VolumeP Proofs.MuonHeapP.
Import ListNotations.
Open Scope R_scope.
Open Scope list_scope.

(* two panels of the same structure, with Q *)
Definition alike (Q : panel -> panel -> Prop) (P P' : panel) : Prop := same_kind (pn_resp P) (pn_resp P') /\ pn_real P' = pn_real P /\ Q P P'.
Definition panelwise (Q : panel -> panel -> Prop) (l l' : layer) : Prop :=
  match l, l' with
  | LPass _, LPass _ => True
  | LDet D, LDet D' => exists ps, D' = with_panels D ps /\ Forall2 Q (dl_panels D) ps
  | _, _ => False
  end.
Definition anyQ (P P' : panel) : Prop := True.
Definition scaleQ (P P' : panel) : Prop := pn_scale P' = pn_scale P.
Lemma kind_refl a : same_kind a a.
Proof. destruct a; exact I. Qed.
Lemma kind_trans a b c : same_kind a b -> same_kind b c -> same_kind a c.
Proof. destruct a, b, c; cbn; tauto. Qed.
Lemma F2_refl {A} (R : A -> A -> Prop) l : (forall a, R a a) -> Forall2 R l l.
Proof. intro H. induction l; constructor; auto. Qed.
Lemma F2_trans {A} (R S T : A -> A -> Prop) : (forall a b c, R a b -> S b c -> T a c) -> forall l m n, Forall2 R l m -> Forall2 S m n -> Forall2 T l n.
Proof. intros H l m n HR. revert n. induction HR as [|a b l m h _ IH]; intros n HS; inversion HS; subst; constructor; eauto. Qed.
Lemma panelwise_refl (Q : panel -> panel -> Prop) : (forall P, Q P P) -> forall l, panelwise Q l l.
Proof. intros H [L|D]; cbn; [exact I|]. exists (dl_panels D). split; [now destruct D|now apply F2_refl]. Qed.
Lemma panelwise_trans (Q R T : panel -> panel -> Prop) : (forall a b c, Q a b -> R b c -> T a c) -> forall l m n, panelwise Q l m -> panelwise R m n -> panelwise T l n.
Proof.
  intros H [L|D] [M|E] [N|F]; cbn; try tauto. intros (ps & -> & H1) (qs & -> & H2). exists qs. split; [reflexivity|]. cbn in H2. eapply F2_trans; eauto.
Qed.
Lemma panelwise_imp (Q R : panel -> panel -> Prop) : (forall a b, Q a b -> R a b) -> forall l m, panelwise Q l m -> panelwise R l m.
Proof.
  intros H [L|D] [M|E]; cbn; try tauto. intros (ps & -> & H1). exists ps. split; [reflexivity|]. clear -H H1. induction H1; constructor; auto.
Qed.

Lemma give_budgets_scale order : forall bs ps ps', give_budgets order bs ps = Ok ps' -> Forall2 same_but_scale ps ps'.
Proof.
  induction order as [|j order IH]; intros bs ps ps' H; cbn in H.
  - injection H as <-. apply F2_refl. intro P. exists (pn_scale P). now destruct P.
  - destruct bs as [|c bs]; [discriminate|]. apply IH in H. eapply F2_trans with (R := same_but_scale); [|clear H|exact H].
    + intros a b d (s & ->) (t & ->). exists t. reflexivity.
    + revert j. induction ps as [|P ps IHp]; intros [|j]; cbn; constructor.
      * eexists. reflexivity.
      * apply F2_refl. intro Q. exists (pn_scale Q). now destruct Q.
      * exists (pn_scale P). now destruct P.
      * apply IHp.
Qed.
Lemma give_layers_scale argsort : forall ls sh ls', give_layers argsort sh ls = Ok ls' -> Forall2 (panelwise same_but_scale) ls ls'.
Proof.
  induction ls as [|[L|D] ls IH]; intros sh ls' H; cbn [give_layers] in H.
  - injection H as <-. constructor.
  - destruct (give_layers argsort sh ls) eqn:E; [|discriminate]. injection H as <-. constructor; [exact I|eauto].
  - unfold det_assign_budget in H. destruct (give_budgets _ _ _) as [ps|] eqn:G; [|discriminate]. cbn [bind] in H.
    destruct (give_layers argsort _ ls) eqn:E; [|discriminate]. injection H as <-. constructor; [|eauto]. exists ps. split; [reflexivity|]. eapply give_budgets_scale; eauto.
Qed.
Lemma assign_alike argsort V V' : assign_budget argsort V = Ok V' ->
  Forall2 (panelwise (alike anyQ)) (v_layers V) (v_layers V') /\ v_budget V' = v_budget V /\ v_weights V' = v_weights V /\ (v_budget V = None -> V' = V).
Proof.
  unfold assign_budget. destruct (v_budget V) as [c|] eqn:E.
  - destruct (give_layers _ _ _) as [ls|] eqn:G; [|discriminate]. intros [= <-]. cbn. split; [|repeat split; auto; discriminate].
    apply give_layers_scale in G. clear -G. induction G as [|l l' ls ls' h _ IH]; constructor; auto.
    revert h. apply panelwise_imp. intros a b (s & ->). split; [apply kind_refl|]. split; [reflexivity|exact I].
  - intros [= <-]. split; [|auto]. apply F2_refl. intro. apply panelwise_refl. intro. split; [apply kind_refl|]. split; [reflexivity|exact I].
Qed.
Lemma history_alike argsort V V' : history argsort V V' ->
  Forall2 (panelwise (alike (fun P P' => v_budget V = None -> scaleQ P P'))) (v_layers V) (v_layers V') /\ v_budget V' = v_budget V /\ length (v_weights V') = length (v_weights V).
Proof.
  induction 1 as [|V1 ls ws t _ (H1 & H2 & H3) HT HL|V1 V2 _ (H1 & H2 & H3) HA].
  - split; [|auto]. apply F2_refl. intro. apply panelwise_refl. intro. split; [apply kind_refl|]. split; [reflexivity|intro; reflexivity].
  - cbn. split; [|split; [auto|congruence]]. eapply F2_trans; [|exact H1|exact HT]. cbv beta. intros a b c.
    apply panelwise_trans. intros P P1 P2 (K & Re & S) (resp & r & e & x & y & z & sx & sy & m & K2 & ->). cbn in *.
    split; [eapply kind_trans; eauto|]. cbn. split; [congruence|]. intro N. unfold scaleQ in *. cbn. auto.
  - apply assign_alike in HA as (A1 & A2 & A3 & A4). split; [|split; congruence].
    destruct (v_budget V) as [c|] eqn:E.
    + eapply F2_trans; [|exact H1|exact A1]. cbv beta. intros a b d. apply panelwise_trans. intros P P1 P2 (K & Re & S) (K2 & Re2 & _).
      split; [eapply kind_trans; eauto|]. split; [congruence|discriminate].
    + rewrite A4 by congruence. exact H1.
Qed.

Lemma load_panels Q ps : forall ps', Forall2 (alike Q) ps ps' ->
  exists qs, load_all load_panel (map panel_state_of ps) ps' = Ok qs /\ Forall2 (fun P P2 => exists P', P2 = with_scale P (pn_scale P') /\ Q P P') ps qs.
Proof.
  intros ps' H. induction H as [|P P' ps ps' (K & Re & S) _ (qs & E & F)]; [exists []; split; [reflexivity|constructor]|].
  cbn [map load_all]. unfold load_panel at 1. cbn [panel_state_of t_smooth t_m2 t_res t_eff t_x t_y t_z t_sx t_sy].
  destruct P as [resp re ef x y z sx sy m2 sc rl]. cbn [pn_resp pn_real] in *. rewrite Re.
  destruct resp as [|sm], (pn_resp P') as [|sm']; cbn in K; try tauto; cbn [bind]; rewrite E; cbn [bind]; (eexists; split; [reflexivity|]; constructor; [|exact F]; exists P'; auto).
Qed.
Lemma load_layers Q ls : forall ls', Forall2 (panelwise (alike Q)) ls ls' ->
  exists ms, load_all load_layer (map layer_state_of ls) ls' = Ok ms /\
    Forall2 (panelwise (fun P P2 => exists P', P2 = with_scale P (pn_scale P') /\ Q P P')) ls ms.
Proof.
  intros ls' H. induction H as [|l l' ls ls' h _ (ms & E & F)]; [exists []; split; [reflexivity|constructor]|].
  cbn [map load_all]. destruct l as [L|D], l' as [L'|D']; cbn in h; try tauto; cbn [layer_state_of load_layer].
  - cbn [bind]. rewrite E. cbn [bind]. eexists. split; [reflexivity|]. constructor; [exact I|exact F].
  - destruct h as (ps & -> & h). cbn [with_panels dl_panels]. destruct (load_panels Q _ _ h) as (qs & E2 & F2). rewrite E2. cbn [bind]. rewrite E. cbn [bind].
    eexists. split; [reflexivity|]. constructor; [|exact F]. exists qs. split; [reflexivity|exact F2].
Qed.

(* the optimisers *)
Lemma set_opt_app {O} k (o o' : O) d1 d2 : ~ In k (map fst d1) -> set_opt k o (d1 ++ (k, o') :: d2) = Ok (d1 ++ (k, o) :: d2).
Proof.
  induction d1 as [|[a x] d1 IH]; cbn; intro N; [now rewrite String.eqb_refl|].
  destruct (String.eqb a k) eqn:E; [apply String.eqb_eq in E; subst; tauto|]. rewrite IH by tauto. reflexivity.
Qed.
Lemma load_opts {O} (os : list (string * O)) : forall done now, NoDup (map fst done ++ map fst os) -> Forall (fun k => is_opt k = true) (map fst os) -> map fst now = map fst os ->
  foldM (fun d ko => if is_opt (fst ko) then set_opt (fst ko) (snd ko) d else Ok d) os (done ++ now) = Ok (done ++ os).
Proof.
  induction os as [|[k o] os IH]; intros done now ND F E; destruct now as [|[k' o'] now]; try discriminate; cbn [foldM]; [reflexivity|].
  cbn in E. injection E as -> E. cbn [map fst] in *. inversion F; subst. cbn [fst snd]. rewrite H1. rewrite set_opt_app.
  - cbn [bind]. specialize (IH (done ++ [(k, o)]) now). rewrite <- !app_assoc in IH. cbn [app] in IH. apply IH; auto. rewrite map_app, <- app_assoc. exact ND.
  - apply NoDup_remove_2 in ND. intro X. apply ND. apply in_or_app. auto.
Qed.
Lemma no_weights_key {O} (os : list (string * O)) : Forall (fun k => is_opt k = true) (map fst os) -> existsb (String.eqb "budget_weights") ("volume"%string :: map fst os) = false.
Proof.
  intro F. cbn [existsb]. change (String.eqb "budget_weights" "volume") with false. cbn [orb].
  induction F as [|k ks H _ IH]; [reflexivity|]. cbn [existsb]. rewrite IH, orb_false_r. apply String.eqb_neq. intros <-. discriminate.
Qed.

(* assigning does not depend on the scales *)
Lemma give_budgets_forget order : forall bs ps qs, NoDup order -> (length order <= length bs)%nat -> (forall j, In j order -> (j < length ps)%nat) ->
  Forall2 same_but_scale ps qs ->
  exists ps' qs', length ps' = length ps /\ give_budgets order bs ps = Ok ps' /\ give_budgets order bs qs = Ok qs' /\ Forall2 same_but_scale ps' qs' /\ forall j, In j order -> nth_error qs' j = nth_error ps' j.
Proof.
  intros bs ps qs ND HL HB F. assert (length qs = length ps) as EL by (clear -F; induction F; cbn; auto).
  destruct (give_budgets_effect order bs ps ND HL HB) as (ps' & E1 & L1 & O1 & S1).
  destruct (give_budgets_effect order bs qs ND HL ltac:(intros; rewrite EL; auto)) as (qs' & E2 & L2 & O2 & S2).
  exists ps', qs'. split; [exact L1|]. split; [exact E1|]. split; [exact E2|].
  assert (forall j P Q, nth_error ps j = Some P -> nth_error qs j = Some Q -> same_but_scale P Q) as FN.
  { clear -F. induction F as [|P Q ps qs h _ IH]; intros [|j] A B HA HB; try discriminate; cbn in *; [congruence|eauto]. }
  assert (forall j, In j order -> nth_error qs' j = nth_error ps' j) as HS.
  { intros j Hj. destruct (In_nth_error _ _ Hj) as [i Hi].
    destruct (nth_error bs i) as [c|] eqn:Ec; [|apply nth_error_None in Ec; assert (i < length order)%nat by (apply nth_error_Some; congruence); lia].
    destruct (nth_error ps j) as [P|] eqn:EP; [|apply nth_error_None in EP; apply HB in Hj; lia].
    destruct (nth_error qs j) as [Q|] eqn:EQ; [|apply nth_error_None in EQ; apply HB in Hj; lia].
    rewrite (S1 i j c P Hi Ec EP), (S2 i j c Q Hi Ec EQ). destruct (FN j P Q EP EQ) as (s & ->). reflexivity. }
  split; [|exact HS].
  pose proof (give_budgets_scale _ _ _ _ E1) as F1. pose proof (give_budgets_scale _ _ _ _ E2) as F2.
  eapply F2_trans with (R := fun a b => same_but_scale b a) (S := same_but_scale); [| |eapply F2_trans with (R := same_but_scale) (S := same_but_scale); [|exact F|exact F2]].
  - cbv beta. intros a b c (s & ->) (t & ->). exists t. reflexivity.
  - clear -F1. induction F1; constructor; auto.
  - intros a b c (s & ->) (t & ->). exists t. reflexivity.
Qed.
Lemma give_budgets_short order : forall bs ps, (length bs < length order)%nat -> give_budgets order bs ps = Err IndexError.
Proof. induction order as [|j order IH]; intros [|c bs] ps H; cbn in *; try lia; auto. apply IH. lia. Qed.
Lemma F2_len {A B} (R : A -> B -> Prop) l m : Forall2 R l m -> length m = length l.
Proof. induction 1; cbn; auto. Qed.
Lemma same_z ps qs : Forall2 same_but_scale ps qs -> map pn_z qs = map pn_z ps.
Proof. induction 1 as [|P Q ps qs (s & ->) _ IH]; [reflexivity|]. cbn. now rewrite IH. Qed.
Lemma det_assign_forget argsort D qs bs : is_argsort argsort -> Forall2 same_but_scale (dl_panels D) qs ->
  det_assign_budget argsort bs (with_panels D qs) = det_assign_budget argsort bs D.
Proof.
  intros Ha F. unfold det_assign_budget. assert (panel_zorder argsort (with_panels D qs) = panel_zorder argsort D) as ->.
  { unfold panel_zorder. cbn [with_panels dl_panels]. now rewrite (same_z _ _ F). }
  cbn [with_panels dl_panels]. pose proof (zorder_perm argsort D Ha) as Hp.
  assert (length (panel_zorder argsort D) = length (dl_panels D)) as Hlo by (rewrite (Permutation_length Hp); apply seq_length).
  assert (NoDup (panel_zorder argsort D)) as ND by (apply Permutation_NoDup with (seq 0 (length (dl_panels D))); [apply Permutation_sym; auto|apply seq_NoDup]).
  assert (forall j, In j (panel_zorder argsort D) -> (j < length (dl_panels D))%nat) as HB by (intros j H; apply (Permutation_in _ Hp), in_seq in H; lia).
  destruct (Nat.le_gt_cases (length (panel_zorder argsort D)) (length bs)) as [HL|HL].
  - destruct (give_budgets_forget _ bs _ qs ND HL HB F) as (ps' & qs' & EL & -> & -> & F' & HS). cbn [bind].
    assert (qs' = ps') as ->; [|reflexivity].
    apply nth_error_ext'. intro j. destruct (Nat.lt_ge_cases j (length (dl_panels D))) as [Hj|Hj].
    + apply HS. apply (Permutation_in _ (Permutation_sym Hp)), in_seq. lia.
    + apply F2_len in F'. rewrite (proj2 (nth_error_None ps' j)), (proj2 (nth_error_None qs' j)); auto; lia.
  - now rewrite !give_budgets_short.
Qed.
Lemma give_layers_forget argsort : is_argsort argsort -> forall ls ms, Forall2 (panelwise same_but_scale) ls ms -> forall sh,
  rmap detectors (give_layers argsort sh ms) = rmap detectors (give_layers argsort sh ls).
Proof.
  intros Ha ls ms F. induction F as [|l m ls ms h _ IH]; intro sh; [reflexivity|].
  destruct l as [L|D], m as [M|E]; cbn in h; try tauto; cbn [give_layers].
  - specialize (IH sh). destruct (give_layers argsort sh ms), (give_layers argsort sh ls); cbn in *; exact IH.
  - destruct h as (qs & -> & h). rewrite (det_assign_forget argsort D qs _ Ha h).
    assert (n_costs (with_panels D qs) = n_costs D) as -> by (unfold n_costs; cbn; eapply F2_len; eauto).
    destruct (det_assign_budget argsort (firstn (n_costs D) sh) D); cbn [bind]; [|reflexivity]. specialize (IH (skipn (n_costs D) sh)).
    destruct (give_layers argsort (skipn (n_costs D) sh) ms), (give_layers argsort (skipn (n_costs D) sh) ls); cbn [rmap bind] in *; try discriminate IH; [|exact IH].
    injection IH as IH. unfold detectors in *. cbn [flat_map app]. now rewrite IH.
Qed.
