(* Property C24: saving and loading a detector. *)
From Coq Require Import Reals Lra Lia List Bool String Permutation.
From Verif Require Import Model.SaveLoad Spec.VolumeSpec Spec.SaveLoadSpec Proofs.VolumeP Proofs.VolumeRun Proofs.SaveLoadP.
Import ListNotations.
Open Scope R_scope.
Open Scope list_scope.

(* C24. Whatever happens between saving and loading, loading succeeds and restores the parameters and responses of all panels, the
   budget weights and the states of the optimisers; passive layers and target stay as they are. *)
Theorem C24_restored :
  forall argsort O V V' (os os' : list (string * O)),
  history argsort V V' -> map fst os' = map fst os -> NoDup (map fst os) -> Forall (fun k => is_opt k = true) (map fst os) ->
  exists V1, load argsort (save (Wrap V os)) (Wrap V' os') = Ok (Wrap V1 os) /\
    Forall2 (fun P P1 => same_but_scale P P1) (all_panels (v_layers V)) (all_panels (v_layers V1)) /\
    (v_budget V <> None -> v_weights V1 = v_weights V) /\ v_budget V1 = v_budget V /\
    passives (v_layers V1) = passives (v_layers V') /\ v_target V1 = v_target V'.
Proof.
  intros argsort O V V' os os' H EO ND FO. destruct (history_alike _ _ _ H) as (A & B & W).
  destruct (load_layers _ _ _ A) as (ms & EL & FL).
  pose (V1 := Volume ms (v_budget V') (match v_budget V with Some _ => v_weights V | None => v_weights V' end) (v_target V')).
  assert (load_volume (volume_state_of V) V' = Ok V1) as EV.
  { unfold load_volume, volume_state_of. cbn [t_layers t_weights]. rewrite EL. cbn [bind]. unfold V1. rewrite B.
    destruct (v_budget V); cbn [bind]; [|reflexivity]. rewrite W, Nat.eqb_refl. reflexivity. }
  exists V1. split.
  - unfold load, save. cbn [sv_volume wr_vol wr_opts]. rewrite EV. cbn [bind]. unfold keys. cbn [sv_opts]. rewrite (no_weights_key os FO). cbn [bind].
    pose proof (load_opts os [] os' ND FO EO) as X. cbn [app] in X. now rewrite X.
  - cbn [V1 v_layers v_budget v_weights v_target].
    assert (Forall2 (panelwise same_but_scale) (v_layers V) ms) as FS.
    { clear -FL. induction FL as [|l m ls ms h _ IH]; constructor; auto. revert h. apply panelwise_imp. intros a b (P' & -> & _). eexists. reflexivity. }
    split; [|split; [intro N; destruct (v_budget V); congruence|split; [exact B|split; [|reflexivity]]]].
    + clear -FS. unfold all_panels, detectors. induction FS as [|l m ls ms h _ IH]; cbn; [constructor|].
      destruct l as [L|D], m as [M|E]; cbn in h; try contradiction; cbn [app flat_map]; [exact IH|]. destruct h as (ps & -> & h). apply Forall2_app; auto.
    + revert EL. clear. generalize (map layer_state_of (v_layers V)) as ts. generalize (v_layers V') as ls. intros ls ts. revert ls ms.
      induction ts as [|t ts IH]; intros [|l ls] ms E; cbn [load_all] in E; try discriminate; [injection E as <-; reflexivity|].
      destruct (load_layer t l) as [l'|] eqn:El; [|discriminate]. cbn [bind] in E. destruct (load_all load_layer ts ls) as [r|] eqn:Er; [|discriminate]. injection E as <-.
      specialize (IH _ _ Er). unfold passives in *. cbn [flat_map]. rewrite IH. f_equal.
      destruct t as [ts'|], l as [L|D]; cbn [load_layer] in El; try discriminate.
      * destruct (load_all load_panel ts' (dl_panels D)); [|discriminate]. injection El as <-. reflexivity.
      * injection El as <-. reflexivity.
Qed.
Print Assumptions C24_restored.

(* C24. Without a budget, the detector is exactly the one that was saved. *)
Theorem C24_no_budget :
  forall argsort O V V' (os os' : list (string * O)),
  history argsort V V' -> map fst os' = map fst os -> NoDup (map fst os) -> Forall (fun k => is_opt k = true) (map fst os) ->
  v_budget V = None ->
  exists V1, load argsort (save (Wrap V os)) (Wrap V' os') = Ok (Wrap V1 os) /\ detectors (v_layers V1) = detectors (v_layers V).
Proof.
  intros argsort O V V' os os' H EO ND FO NB.
  destruct (C24_restored argsort O V V' os os' H EO ND FO) as (V1 & E & _). exists V1. split; [exact E|].
  destruct (history_alike _ _ _ H) as (A & B & W). destruct (load_layers _ _ _ A) as (ms & EL & FL).
  unfold load in E. cbn [save sv_volume wr_vol wr_opts] in E. unfold load_volume, volume_state_of in E. cbn [t_layers t_weights] in E. rewrite EL in E. cbn [bind] in E.
  rewrite B, NB in E. cbn [bind] in E. unfold keys in E. cbn [sv_opts save] in E. cbn [save wr_opts sv_opts] in E. rewrite (no_weights_key os FO) in E. cbn [bind] in E.
  destruct (foldM _ _ _); [|discriminate]. cbn [bind] in E. injection E as <- _. cbn [v_layers].
  clear -FL NB. unfold detectors. induction FL as [|l m ls ms h _ IH]; [reflexivity|]. cbn [flat_map]. rewrite IH. f_equal.
  destruct l as [L|D], m as [M|E]; cbn in h; try contradiction; [reflexivity|]. destruct h as (ps & -> & h). assert (with_panels D ps = D) as ->; [|reflexivity]. destruct D as [dp lx ly dz ds pn]. unfold with_panels. cbn in *. f_equal.
  clear IH. induction h as [|P Q ps qs (P' & -> & S) _ IHh]; [reflexivity|]. rewrite (S NB), IHh. now destruct P.
Qed.
Print Assumptions C24_no_budget.

(* C24. With a budget: the next assignment of the budget, as every crossing of the volume begins with one, gives exactly the detector
   that an assignment would have given when it was saved; if the budget had just been assigned then, it is the detector that was saved. *)
Theorem C24_budget :
  forall argsort O V V' (os os' : list (string * O)),
  is_argsort argsort -> history argsort V V' ->
  map fst os' = map fst os -> NoDup (map fst os) -> Forall (fun k => is_opt k = true) (map fst os) ->
  exists V1, load argsort (save (Wrap V os)) (Wrap V' os') = Ok (Wrap V1 os) /\
    rmap (fun U => detectors (v_layers U)) (assign_budget argsort V1) = rmap (fun U => detectors (v_layers U)) (assign_budget argsort V) /\
    (up_to_date argsort V -> exists V2, assign_budget argsort V1 = Ok V2 /\ detectors (v_layers V2) = detectors (v_layers V)).
Proof.
  intros argsort O V V' os os' Ha H EO ND FO.
  destruct (v_budget V) as [c|] eqn:EB.
  - destruct (C24_restored argsort O V V' os os' H EO ND FO) as (V1 & E & _ & Wt & Bt & _). exists V1. split; [exact E|].
    destruct (history_alike _ _ _ H) as (A & B & W). destruct (load_layers _ _ _ A) as (ms & EL & FL).
    assert (v_layers V1 = ms) as EM.
    { unfold load in E. cbn [save sv_volume wr_vol wr_opts] in E. unfold load_volume, volume_state_of in E. cbn [t_layers t_weights] in E. rewrite EL in E. cbn [bind] in E.
      rewrite B, EB in E. rewrite W, Nat.eqb_refl in E. cbn [bind] in E. unfold keys in E. cbn [save wr_opts sv_opts] in E. rewrite (no_weights_key os FO) in E. cbn [bind] in E.
      destruct (foldM _ _ _); [|discriminate]. cbn [bind] in E. injection E as <- _. reflexivity. }
    assert (rmap (fun U => detectors (v_layers U)) (assign_budget argsort V1) = rmap (fun U => detectors (v_layers U)) (assign_budget argsort V)) as Q.
    { unfold assign_budget. rewrite Bt, EB, Wt, EM by congruence.
      assert (Forall2 (panelwise same_but_scale) (v_layers V) ms) as FS.
      { clear -FL. induction FL as [|l m ls ms h _ IH]; constructor; auto. revert h. apply panelwise_imp. intros a b (P' & -> & _). eexists. reflexivity. }
      pose proof (give_layers_forget argsort Ha _ _ FS (map (fun s => c * s) (softmax (v_weights V)))) as X.
      destruct (give_layers argsort _ ms), (give_layers argsort _ (v_layers V)); cbn [rmap bind v_layers] in *; first [exact X|discriminate X]. }
    split; [exact Q|]. intro U. unfold up_to_date in U. rewrite U in Q. cbn in Q. destruct (assign_budget argsort V1) as [V2|] eqn:E2; [|discriminate].
    exists V2. split; [reflexivity|]. cbn in Q. congruence.
  - destruct (C24_no_budget argsort O V V' os os' H EO ND FO EB) as (V1 & E & D). exists V1. split; [exact E|].
    destruct (C24_restored argsort O V V' os os' H EO ND FO) as (V1' & E' & _ & _ & Bt & _). rewrite E in E'. injection E' as <-.
    unfold assign_budget. rewrite Bt, EB. cbn. split; [congruence|]. intros _. exists V1. auto.
Qed.
Print Assumptions C24_budget.

(* one panel of side s, scaled by sc, with a budget of one *)
Definition det1 (s sc : R) : layer := LDet (Det "above" 10 10 10 1 [Panel Gauss 1000 1 5 5 (19/2) s s 1 sc true]).
Definition vol1 (s sc : R) : volume := Volume [det1 s sc] (Some 1) [0] None.
Lemma assign1 s sc : 0 < s -> assign_budget argsort_ins (vol1 s sc) = Ok (vol1 s (1 / s)).
Proof.
  intro Hs. unfold assign_budget, vol1, det1. cbn [v_budget v_weights v_layers v_target give_layers softmax map n_costs dl_panels List.length firstn skipn].
  unfold det_assign_budget. cbn [panel_zorder argsort_ins dl_panels map List.length seq fold_right ins_idx rev app give_budgets set_nth bind].
  unfold panel_assign_budget, with_scale. cbn [pn_resp pn_res pn_eff pn_x pn_y pn_z pn_sx pn_sy pn_m2 pn_real with_panels dl_pos dl_lx dl_ly dl_z dl_size].
  assert (sqrt (1 * (exp 0 / Rsum [exp 0]) / (1 * (s * s))) = 1 / s) as ->; [|reflexivity].
  replace (1 * (exp 0 / Rsum [exp 0]) / (1 * (s * s))) with ((1 / s) * (1 / s)).
  - apply sqrt_square. apply Rlt_le. apply Rdiv_lt_0_compat; lra.
  - cbn [Rsum fold_right]. rewrite exp_0. field. lra.
Qed.
Lemma between1 : history argsort_ins (vol1 1 1) (vol1 2 (1 / 2)).
Proof.
  apply (h_assign _ _ (vol1 2 1)); [|apply assign1; lra].
  apply (h_tune _ _ (vol1 1 1) [det1 2 1] [0] None); [apply h_nothing| |reflexivity].
  constructor; [|constructor]. eexists. split; [reflexivity|]. constructor; [|constructor].
  exists Gauss, 1000, 1, 5, 5, (19/2), 2, 2, 1. split; [exact I|reflexivity].
Qed.

(* C24 is false with a budget: load looks for budget_weights among the entries of the file, while they are inside its "volume" entry,
   and so never assigns the budget.  A panel of effective size one comes back half as large, until the next crossing *)
Theorem C24_budget_refuted :
  exists argsort V V' V1,
    is_argsort argsort /\ up_to_date argsort V /\ history argsort V V' /\
    load argsort (save (Wrap V [("z_pos_opt"%string, tt)])) (Wrap V' [("z_pos_opt"%string, tt)]) = Ok (Wrap V1 [("z_pos_opt"%string, tt)]) /\
    map span_x (all_panels (v_layers V)) = [1] /\ map span_x (all_panels (v_layers V1)) = [1 / 2].
Proof.
  exists argsort_ins, (vol1 1 1), (vol1 2 (1 / 2)), (vol1 1 (1 / 2)). split; [exact argsort_exists|]. split; [|split; [exact between1|split; [reflexivity|]]].
  - unfold up_to_date. rewrite assign1 by lra. do 2 f_equal. lra.
  - cbn. split; f_equal; unfold span_x; cbn; lra.
Qed.
Print Assumptions C24_budget_refuted.

(* a detector without budget, moved and loaded *)
Example C24_case :
  let V := Volume [det1 1 1] None [] None in let V' := Volume [det1 2 1] None [] None in
  history argsort_ins V V' /\ v_budget V = None /\ is_opt "z_pos_opt" = true /\
  load argsort_ins (save (Wrap V [("z_pos_opt"%string, 1%nat)])) (Wrap V' [("z_pos_opt"%string, 7%nat)]) = Ok (Wrap V [("z_pos_opt"%string, 1%nat)]).
Proof.
  cbv zeta. split; [|split; [reflexivity|split; reflexivity]].
  apply (h_tune _ _ (Volume [det1 1 1] None [] None) [det1 2 1] [] None); [apply h_nothing| |reflexivity].
  constructor; [|constructor]. eexists. split; [reflexivity|]. constructor; [|constructor].
  exists Gauss, 1000, 1, 5, 5, (19/2), 2, 2, 1. split; [exact I|reflexivity].
Qed.

(* C24. If the state of a volume cannot be loaded, the exception is torch's RuntimeError, as when the file has a panel too many *)
Theorem C24_raises : forall t V e, load_volume t V = Err e -> e = RuntimeError.
Proof.
  assert (A : forall X Y (f : X -> Y -> res Y), (forall x y e, f x y = Err e -> e = RuntimeError) -> forall xs ys e, load_all f xs ys = Err e -> e = RuntimeError).
  { intros X Y f Hf. induction xs as [|x xs IH]; intros [|y ys] e H; cbn in H; try (injection H as <-; reflexivity); try discriminate H.
    destruct (f x y) eqn:E; cbn in H; [|injection H as <-; exact (Hf _ _ _ E)]. destruct (load_all f xs ys) eqn:E2; cbn in H; [discriminate H|injection H as <-; exact (IH _ _ E2)]. }
  assert (P : forall t P e, load_panel t P = Err e -> e = RuntimeError).
  { intros t P e H. unfold load_panel in H. destruct (pn_resp P), (t_smooth t); cbn in H; try discriminate H; injection H as <-; reflexivity. }
  intros t V e H. unfold load_volume in H. destruct (load_all load_layer (t_layers t) (v_layers V)) eqn:E; cbn [bind] in H.
  - destruct (v_budget V), (t_weights t); cbn [bind] in H; try discriminate H; try (injection H as <-; reflexivity). destruct (Nat.eqb _ _); cbn [bind] in H; [discriminate H|injection H as <-; reflexivity].
  - injection H as <-. revert E. apply A. intros x y e9. unfold load_layer. destruct x as [ts|], y as [L0|D0]; intro H; try discriminate H; try (injection H as <-; reflexivity).
    destruct (load_all load_panel ts (dl_panels D0)) eqn:E; cbn in H; [discriminate H|injection H as <-; exact (A _ _ _ P _ _ _ E)].
Qed.
Example C24_raises_case : load_volume (VState [Some []; None] None) (Volume [det1 1 1] None [] None) = Err RuntimeError.
Proof. reflexivity. Qed.
