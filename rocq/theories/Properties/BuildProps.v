(* C97: the optimisers of a wrapper own every learnable parameter of the detector exactly once, and a step updates each of them once. *)
From Coq Require Import Permutation Reals Lra.
From Verif Require Import Proofs.BuildP.
Open Scope string_scope.
Open Scope list_scope.

(* A PanelVolumeWrapper can be made exactly if there is a panel, all panels are DetectorPanels, and a budget optimiser is given only with a budget *)
Theorem C97_panel_built : forall xy z span budget V,
  (exists os, build_panel xy z span budget V = Ok os) <->
  (exists p, panel_in p V) /\ (forall p, panel_in p V -> rect p) /\ (budget <> None -> vo_budget V <> None).
Proof.
  intros xy z span budget V. unfold build_panel. split.
  - intros (os & H).
    destruct (opt_of get_xy xy V) as [o1|e] eqn:E1; cbn in H; [|discriminate].
    destruct (opt_of get_z z V) as [o2|e] eqn:E2; cbn in H; [|discriminate].
    destruct (opt_of get_span span V) as [o3|e] eqn:E3; cbn in H; [|discriminate].
    apply opt_of_ok in E1. destruct E1 as (ps & -> & N & F). apply (F2_nonempty F) in N as N'.
    split; [|split].
    + destruct (panels_of V) as [|p l] eqn:E; [congruence|]. exists p. apply panels_of_in. rewrite E. left; reflexivity.
    + intros p Hp. apply panels_of_in in Hp. clear - F Hp. induction F as [|a b l ps E F IH]; [destruct Hp|].
      destruct Hp as [->|Hp]; [|apply IH; exact Hp]. destruct p; [exact I | discriminate].
    + intros NB EB. destruct budget; [|congruence]. rewrite EB in H. discriminate.
  - intros ((p0 & H0) & HR & HB).
    assert (NE : panels_of V <> []). { apply panels_of_in in H0. intro E. rewrite E in H0. destruct H0. }
    assert (G : forall get : pan -> res param, (forall p, rect p -> exists q, get p = Ok q) -> forall d, exists o, opt_of get d V = Ok o).
    { intros get T d. destruct (F2_total get (panels_of V)) as (ps & F); [intros p Hp; apply T, HR, panels_of_in, Hp|].
      exists [Group ps d]. apply opt_of_ok. exists ps. split; [reflexivity|]. split; [apply (F2_nonempty F), NE | exact F]. }
    destruct (G get_xy) with (d := xy) as (o1 & ->); [intros [] []; eexists; reflexivity|].
    destruct (G get_z) with (d := z) as (o2 & ->); [intros [] []; eexists; reflexivity|].
    destruct (G get_span) with (d := span) as (o3 & ->); [intros [] []; eexists; reflexivity|]. cbn.
    destruct budget as [d|]; [|eexists; reflexivity]. destruct (vo_budget V) as [b|]; [|exfalso; apply HB; [discriminate|reflexivity]].
    eexists. reflexivity.
Qed.
Print Assumptions C97_panel_built.

(* Which optimiser owns what: each kind of parameter of all panels, with the settings that were given for it; no parameter twice *)
Theorem C97_panel_owns : forall xy z span budget V os,
  build_panel xy z span budget V = Ok os -> separate V ->
  NoDup (map p_id (owned os)) /\
  map fst os = ["xy_pos_opt"; "z_pos_opt"; "xy_span_opt"] ++ match budget with Some _ => ["budget_opt"] | None => [] end /\
  opt_is os "xy_pos_opt" xy (fun q => exists b c, panel_in (Rect q b c) V) /\
  opt_is os "z_pos_opt" z (fun q => exists a c, panel_in (Rect a q c) V) /\
  opt_is os "xy_span_opt" span (fun q => exists a b, panel_in (Rect a b q) V) /\
  (forall d, budget = Some d -> opt_is os "budget_opt" d (fun q => vo_budget V = Some q)).
Proof.
  intros xy z span budget V os H S. unfold build_panel in H.
  destruct (opt_of get_xy xy V) as [o1|e] eqn:E1; cbn in H; [|discriminate].
  destruct (opt_of get_z z V) as [o2|e] eqn:E2; cbn in H; [|discriminate].
  destruct (opt_of get_span span V) as [o3|e] eqn:E3; cbn in H; [|discriminate].
  apply opt_of_ok in E1, E2, E3. destruct E1 as (xs & -> & _ & FX). destruct E2 as (zs & -> & _ & FZ). destruct E3 as (ss & -> & _ & FS).
  assert (K : forall o4, os = [("xy_pos_opt", [Group xs xy]); ("z_pos_opt", [Group zs z]); ("xy_span_opt", [Group ss span])] ++ o4 ->
    opt_is os "xy_pos_opt" xy (fun q => exists b c, panel_in (Rect q b c) V) /\
    opt_is os "z_pos_opt" z (fun q => exists a c, panel_in (Rect a q c) V) /\
    opt_is os "xy_span_opt" span (fun q => exists a b, panel_in (Rect a b q) V)).
  { intros o4 ->. split; [|split].
    - exists xs. split; [left; reflexivity|]. intro q. rewrite (F2_get FX q). split.
      + intros (p & Hp & E). destruct p as [a b c|]; [|discriminate]. cbn in E. injection E as ->. exists b, c. apply panels_of_in, Hp.
      + intros (b & c & Hp). exists (Rect q b c). split; [apply panels_of_in, Hp | reflexivity].
    - exists zs. split; [right; left; reflexivity|]. intro q. rewrite (F2_get FZ q). split.
      + intros (p & Hp & E). destruct p as [a b c|a b c d]; cbn in E.
        * injection E as ->. exists a, c. apply panels_of_in, Hp.
        * exfalso. clear - FX Hp. induction FX as [|? ? ? ? E F IH]; [destruct Hp|]. destruct Hp as [->|Hp]; [discriminate | apply IH, Hp].
      + intros (a & c & Hp). exists (Rect a q c). split; [apply panels_of_in, Hp | reflexivity].
    - exists ss. split; [right; right; left; reflexivity|]. intro q. rewrite (F2_get FS q). split.
      + intros (p & Hp & E). destruct p as [a b c|]; [|discriminate]. cbn in E. injection E as ->. exists a, b. apply panels_of_in, Hp.
      + intros (a & b & Hp). exists (Rect a b q). split; [apply panels_of_in, Hp | reflexivity]. }
  pose proof (count_split3 _ _ _ _ FX FZ FS) as P. destruct (panels_objects V) as (rest & PO & _).
  pose proof (Permutation_NoDup (Permutation_map p_id PO) S) as ND. rewrite P in ND.
  destruct budget as [d|].
  - destruct (vo_budget V) as [b|] eqn:EB; [|discriminate]. cbn in H. injection H as <-.
    destruct (K [("budget_opt", [Group [b] d])] eq_refl) as (K1 & K2 & K3).
    split; [|split; [reflexivity|split; [exact K1|split; [exact K2|split; [exact K3|]]]]].
    + cbn. rewrite !app_nil_r. cbn in ND. rewrite map_app in ND. inversion ND as [|? ? NI ND']; subst. apply nodup_app_l in ND'.
      rewrite !map_app in *. cbn.
      eapply Permutation_NoDup with (l := p_id b :: map p_id xs ++ map p_id zs ++ map p_id ss).
      * rewrite !app_assoc. apply Permutation_cons_append.
      * constructor; [|exact ND']. intro Hb. apply NI, in_or_app. left. exact Hb.
    + intros d' E. injection E as <-. exists [b]. split; [right; right; right; left; reflexivity|].
      intro q. cbn. split; [intros [->|[]]; reflexivity | intro E; injection E as ->; left; reflexivity].
  - injection H as <-. destruct (K [] eq_refl) as (K1 & K2 & K3).
    split; [|split; [reflexivity|split; [exact K1|split; [exact K2|split; [exact K3|]]]]]; [|intros d E; discriminate].
    cbn. rewrite !app_nil_r. rewrite map_app in ND. apply nodup_app_r in ND. rewrite map_app in ND. apply nodup_app_l in ND. exact ND.
Qed.
Print Assumptions C97_panel_owns.

(* If all detector layers are panel layers, and a budget optimiser is given if there is a budget, then all parameters of the volume are owned *)
Theorem C97_panel_all : forall xy z span budget V os,
  build_panel xy z span budget V = Ok os -> separate V ->
  (forall own, ~ In (Other own) (vo_layers V)) -> (vo_budget V <> None -> budget <> None) ->
  forall q, In q (owned os) <-> In q (parameters V).
Proof.
  intros xy z span budget V os H S NO HB q. rewrite (parameters_in V q S).
  destruct (panels_objects V) as (rest & PO & NR). rewrite (NR NO), app_nil_r in PO. clear NR.
  unfold build_panel in H.
  destruct (opt_of get_xy xy V) as [o1|e] eqn:E1; cbn in H; [|discriminate].
  destruct (opt_of get_z z V) as [o2|e] eqn:E2; cbn in H; [|discriminate].
  destruct (opt_of get_span span V) as [o3|e] eqn:E3; cbn in H; [|discriminate].
  apply opt_of_ok in E1, E2, E3. destruct E1 as (xs & -> & _ & FX). destruct E2 as (zs & -> & _ & FZ). destruct E3 as (ss & -> & _ & FS).
  pose proof (count_split3 _ _ _ _ FX FZ FS) as P. rewrite P in PO.
  assert (E : In q (objects V) <-> In q (match vo_budget V with Some b => [b] | None => [] end ++ xs ++ zs ++ ss)).
  { split; apply Permutation_in; [exact PO | symmetry; exact PO]. }
  rewrite E. destruct (vo_budget V) as [b|] eqn:EB.
  - destruct budget as [d|]; [|exfalso; apply HB; [discriminate|reflexivity]]. cbn in H. injection H as <-. cbn.
    rewrite !app_nil_r, !in_app_iff. cbn. tauto.
  - destruct budget as [d|]; [discriminate|]. injection H as <-. cbn. rewrite !app_nil_r. reflexivity.
Qed.
Print Assumptions C97_panel_all.

(* The same for HeatMapVolumeWrapper; it has no optimiser for a budget *)
Theorem C97_heat : forall mu norm sig z V,
  ((exists os, build_heat mu norm sig z V = Ok os) <-> (exists p, panel_in p V) /\ (forall p, panel_in p V -> heat p)) /\
  forall os, build_heat mu norm sig z V = Ok os -> separate V ->
    NoDup (map p_id (owned os)) /\
    map fst os = ["mu_opt"; "norm_opt"; "sig_opt"; "z_pos_opt"] /\
    opt_is os "mu_opt" mu (fun q => exists b c d, panel_in (Heat q b c d) V) /\
    opt_is os "sig_opt" sig (fun q => exists a c d, panel_in (Heat a q c d) V) /\
    opt_is os "norm_opt" norm (fun q => exists a b d, panel_in (Heat a b q d) V) /\
    opt_is os "z_pos_opt" z (fun q => exists a b c, panel_in (Heat a b c q) V) /\
    ((forall own, ~ In (Other own) (vo_layers V)) -> vo_budget V = None -> forall q, In q (owned os) <-> In q (parameters V)).
Proof.
  intros mu norm sig z V. split; [split|].
  - intros (os & H). unfold build_heat in H. destruct (opt_of get_mu mu V) as [o1|e] eqn:E1; cbn in H; [|discriminate].
    apply opt_of_ok in E1. destruct E1 as (ps & -> & N & F). apply (F2_nonempty F) in N as N'. split.
    + destruct (panels_of V) as [|p l] eqn:E; [congruence|]. exists p. apply panels_of_in. rewrite E. left; reflexivity.
    + intros p Hp. apply panels_of_in in Hp. clear - F Hp. induction F as [|a b l ps E F IH]; [destruct Hp|].
      destruct Hp as [->|Hp]; [|apply IH; exact Hp]. destruct p; [discriminate | exact I].
  - intros ((p0 & H0) & HR). unfold build_heat.
    assert (NE : panels_of V <> []). { apply panels_of_in in H0. intro E. rewrite E in H0. destruct H0. }
    assert (G : forall get : pan -> res param, (forall p, heat p -> exists q, get p = Ok q) -> forall d, exists o, opt_of get d V = Ok o).
    { intros get T d. destruct (F2_total get (panels_of V)) as (ps & F); [intros p Hp; apply T, HR, panels_of_in, Hp|].
      exists [Group ps d]. apply opt_of_ok. exists ps. split; [reflexivity|]. split; [apply (F2_nonempty F), NE | exact F]. }
    destruct (G get_mu) with (d := mu) as (o1 & ->); [intros [] []; eexists; reflexivity|].
    destruct (G get_norm) with (d := norm) as (o2 & ->); [intros [] []; eexists; reflexivity|].
    destruct (G get_sig) with (d := sig) as (o3 & ->); [intros [] []; eexists; reflexivity|].
    destruct (G get_z) with (d := z) as (o4 & ->); [intros [] []; eexists; reflexivity|]. eexists. reflexivity.
  - intros os H S. unfold build_heat in H.
    destruct (opt_of get_mu mu V) as [o1|e] eqn:E1; cbn in H; [|discriminate].
    destruct (opt_of get_norm norm V) as [o2|e] eqn:E2; cbn in H; [|discriminate].
    destruct (opt_of get_sig sig V) as [o3|e] eqn:E3; cbn in H; [|discriminate].
    destruct (opt_of get_z z V) as [o4|e] eqn:E4; cbn in H; [|discriminate]. injection H as <-.
    apply opt_of_ok in E1, E2, E3, E4. destruct E1 as (ms & -> & _ & FM). destruct E2 as (ns & -> & _ & FN).
    destruct E3 as (ss & -> & _ & FS). destruct E4 as (zs & -> & _ & FZ).
    pose proof (count_split4 _ _ _ _ _ FM FN FS FZ) as P. destruct (panels_objects V) as (rest & PO & NR).
    split; [|split; [reflexivity|split; [|split; [|split; [|split]]]]].
    + pose proof (Permutation_NoDup (Permutation_map p_id PO) S) as ND. rewrite P in ND. cbn. rewrite !app_nil_r.
      rewrite map_app in ND. apply nodup_app_r in ND. rewrite map_app in ND. apply nodup_app_l in ND. exact ND.
    + exists ms. split; [left; reflexivity|]. intro q. rewrite (F2_get FM q). split.
      * intros (p & Hp & E). destruct p as [|a b c d]; [discriminate|]. cbn in E. injection E as ->. exists b, c, d. apply panels_of_in, Hp.
      * intros (b & c & d & Hp). exists (Heat q b c d). split; [apply panels_of_in, Hp | reflexivity].
    + exists ss. split; [right; right; left; reflexivity|]. intro q. rewrite (F2_get FS q). split.
      * intros (p & Hp & E). destruct p as [|a b c d]; [discriminate|]. cbn in E. injection E as ->. exists a, c, d. apply panels_of_in, Hp.
      * intros (b & c & d & Hp). exists (Heat b q c d). split; [apply panels_of_in, Hp | reflexivity].
    + exists ns. split; [right; left; reflexivity|]. intro q. rewrite (F2_get FN q). split.
      * intros (p & Hp & E). destruct p as [|a b c d]; [discriminate|]. cbn in E. injection E as ->. exists a, b, d. apply panels_of_in, Hp.
      * intros (b & c & d & Hp). exists (Heat b c q d). split; [apply panels_of_in, Hp | reflexivity].
    + exists zs. split; [right; right; right; left; reflexivity|]. intro q. rewrite (F2_get FZ q). split.
      * intros (p & Hp & E). destruct p as [a b c|a b c d]; cbn in E.
        { exfalso. clear - FM Hp. induction FM as [|? ? ? ? E F IH]; [destruct Hp|]. destruct Hp as [->|Hp]; [discriminate | apply IH, Hp]. }
        injection E as ->. exists a, b, c. apply panels_of_in, Hp.
      * intros (b & c & d & Hp). exists (Heat b c d q). split; [apply panels_of_in, Hp | reflexivity].
    + intros NO NB q. rewrite (parameters_in V q S). rewrite (NR NO), NB, app_nil_r in PO. cbn [app] in PO. rewrite P in PO.
      cbn. rewrite !app_nil_r. split; apply Permutation_in; [symmetry; exact PO | exact PO].
Qed.
Print Assumptions C97_heat.

(* A step of all optimisers that share no parameter: each owned parameter is updated once, from its value before the step, with the settings of its group; all
   else stays *)
Theorem C97_step : forall W (rule : settings -> param -> W -> W) (os : opts) (m : nat -> W), NoDup (map p_id (owned os)) ->
  (forall name o g p, In (name, o) os -> In g o -> In p (g_params g) ->
     step_all rule os m (p_id p) = rule (g_set g) p (m (p_id p))) /\
  (forall i, (forall p, In p (owned os) -> p_id p <> i) -> step_all rule os m i = m i).
Proof.
  intros W rule os m ND. rewrite step_jobs.
  assert (E : map (fun j => p_id (snd j)) (jobs os) = map p_id (owned os)) by (rewrite <- jobs_owned, map_map; reflexivity).
  split.
  - intros name o g p Ho Hg Hp. apply (jobs_in rule (jobs os) m (g_set g, p)); [rewrite E; exact ND|].
    unfold jobs. apply in_flat_map. exists (name, o). split; [exact Ho|]. apply in_flat_map. exists g. split; [exact Hg|].
    apply in_map_iff. exists p. split; [reflexivity|exact Hp].
  - intros i Hi. apply jobs_out. rewrite E. intro H. apply in_map_iff in H. destruct H as (p & Ep & Hp). apply (Hi p Hp Ep).
Qed.
Print Assumptions C97_step.

(* so the order of the optimisers does not matter *)
Theorem C97_step_order : forall W (rule : settings -> param -> W -> W) (os os' : opts) (m : nat -> W), NoDup (map p_id (owned os)) ->
  Permutation os os' -> forall i, step_all rule os m i = step_all rule os' m i.
Proof.
  intros W rule os os' m ND P i.
  assert (PO : Permutation (owned os) (owned os')). { unfold owned. clear - P. induction P as [|x l l' P IH|x y l|a b c P1 IH1 P2 IH2]; cbn.
    - constructor. - apply Permutation_app_head, IH. - rewrite !app_assoc. apply Permutation_app_tail, Permutation_app_comm. - etransitivity; eassumption. }
  pose proof (Permutation_NoDup (Permutation_map p_id PO) ND) as ND'.
  destruct (C97_step W rule os m ND) as [I1 O1]. destruct (C97_step W rule os' m ND') as [I2 O2].
  destruct (in_dec Nat.eq_dec i (map p_id (owned os))) as [H|H].
  - apply in_map_iff in H. destruct H as (p & <- & Hp). unfold owned, owns in Hp. apply in_flat_map in Hp. destruct Hp as ([n o] & Ho & Hp).
    apply in_flat_map in Hp. destruct Hp as (g & Hg & Hp). rewrite (I1 n o g p Ho Hg Hp). symmetry. apply (I2 n o g p); [|exact Hg|exact Hp].
    eapply Permutation_in; eassumption.
  - rewrite O1, O2; [reflexivity| |]; intros p Hp E; apply H; rewrite <- E; apply in_map; [|exact Hp].
    eapply Permutation_in; [symmetry; exact PO | exact Hp].
Qed.
Print Assumptions C97_step_order.

(* Learning rate: what is set is what is got; nothing else changes - not other optimisers, not the other settings, not what is owned.  Setting and getting fail for
   unknown names only *)
Theorem C97_lr : forall (os : opts) opt lr,
  (forall g gs, dget opt os = Ok (g :: gs) ->
     exists os', set_opt_lr lr opt os = Ok os' /\ get_opt_lr os' opt = Ok (Num lr) /\
       (exists g', dget opt os' = Ok (g' :: gs) /\ g_params g' = g_params g /\ forall k, k <> "lr" -> dget k (g_set g') = dget k (g_set g)) /\
       (forall o, o <> opt -> dget o os' = dget o os)) /\
  (dget opt os = Err KeyError -> set_opt_lr lr opt os = Err KeyError /\ get_opt_lr os opt = Err KeyError /\
     set_opt_mom lr opt os = Err KeyError /\ get_opt_mom os opt = Err KeyError).
Proof.
  intros os opt lr. split.
  - intros g gs E. unfold set_opt_lr, set_group0, group0. rewrite E. cbn. eexists. split; [reflexivity|].
    split; [|split].
    + unfold get_opt_lr, group0. rewrite dget_dset_same. cbn. apply dget_dset_same.
    + eexists. split; [apply dget_dset_same|]. split; [reflexivity|]. intros k N. cbn. apply dget_dset_other, N.
    + intros o N. apply dget_dset_other, N.
  - intro E. unfold set_opt_lr, get_opt_lr, set_opt_mom, get_opt_mom, group0. rewrite E. cbn. tauto.
Qed.
Print Assumptions C97_lr.

(* Momentum: the first of the betas if the optimiser has betas, keeping the second; otherwise "momentum" *)
Theorem C97_mom : forall (os : opts) opt mom g gs, dget opt os = Ok (g :: gs) ->
  (forall b1 b2, dget "betas" (g_set g) = Ok (Pair b1 b2) ->
     get_opt_mom os opt = Ok (Num b1) /\
     exists os', set_opt_mom mom opt os = Ok os' /\ get_opt_mom os' opt = Ok (Num mom) /\
       (exists g', dget opt os' = Ok (g' :: gs) /\ g_params g' = g_params g /\ dget "betas" (g_set g') = Ok (Pair mom b2) /\
          forall k, k <> "betas" -> dget k (g_set g') = dget k (g_set g)) /\
       (forall o, o <> opt -> dget o os' = dget o os)) /\
  (forall v, dhas "betas" (g_set g) = false -> dget "momentum" (g_set g) = Ok v ->
     get_opt_mom os opt = Ok v /\
     exists os', set_opt_mom mom opt os = Ok os' /\ get_opt_mom os' opt = Ok (Num mom) /\
       (exists g', dget opt os' = Ok (g' :: gs) /\ g_params g' = g_params g /\
          forall k, k <> "momentum" -> dget k (g_set g') = dget k (g_set g)) /\
       (forall o, o <> opt -> dget o os' = dget o os)).
Proof.
  intros os opt mom g gs E. split.
  - intros b1 b2 EB. assert (HB : dhas "betas" (g_set g) = true) by (apply dhas_get; eauto).
    split; [unfold get_opt_mom, group0; rewrite E; cbn; rewrite HB, EB; reflexivity|].
    unfold set_opt_mom, set_group0, group0. rewrite E. cbn. rewrite HB, EB. cbn. eexists. split; [reflexivity|]. split; [|split].
    + unfold get_opt_mom, group0. rewrite dget_dset_same. cbn [bind g_set]. rewrite dhas_dset. change (String.eqb "betas" "betas") with true. cbn [orb]. rewrite dget_dset_same. reflexivity.
    + eexists. split; [apply dget_dset_same|]. split; [reflexivity|]. cbn. split; [apply dget_dset_same|]. intros k N. apply dget_dset_other, N.
    + intros o N. apply dget_dset_other, N.
  - intros v HB EM. split; [unfold get_opt_mom, group0; rewrite E; cbn; rewrite HB; exact EM|].
    unfold set_opt_mom, set_group0, group0. rewrite E. cbn. rewrite HB. eexists. split; [reflexivity|]. split; [|split].
    + unfold get_opt_mom, group0. rewrite dget_dset_same. cbn [bind g_set]. rewrite dhas_dset, HB. change (String.eqb "momentum" "betas") with false. cbn [orb]. apply dget_dset_same.
    + eexists. split; [apply dget_dset_same|]. split; [reflexivity|]. cbn. intros k N. apply dget_dset_other, N.
    + intros o N. apply dget_dset_other, N.
Qed.
Print Assumptions C97_mom.

(* The parameter count: the sum over every parameter object once; without frozen ones if only trainable ones are asked for *)
Theorem C97_count : forall V, separate V ->
  NoDup (map p_id (parameters V)) /\ (forall q, In q (parameters V) <-> In q (objects V)) /\
  get_param_count false V = list_sum (map p_numel (parameters V)) /\
  get_param_count true V = list_sum (map p_numel (filter p_grad (parameters V))) /\
  get_param_count true V <= get_param_count false V.
Proof.
  intros V S. split; [apply parameters_nodup|]. split; [intro q; apply parameters_in, S|]. unfold get_param_count.
  generalize (parameters V) as l. intro l.
  assert (E1 : forall f, fold_right (fun p n => p_numel p + n) 0 (filter f l) = list_sum (map p_numel (filter f l))).
  { intro f. induction (filter f l) as [|p k IH]; [reflexivity|]. cbn. rewrite IH. reflexivity. }
  rewrite !E1. clear E1.
  assert (E2 : filter (fun p => p_grad p || negb false) l = l).
  { induction l as [|p k IH]; [reflexivity|]. cbn [filter]. rewrite orb_true_r, IH. reflexivity. }
  assert (E3 : filter (fun p => p_grad p || negb true) l = filter p_grad l).
  { induction l as [|p k IH]; [reflexivity|]. cbn [filter] in *. rewrite orb_true_r in E2. injection E2 as E2. rewrite orb_false_r, (IH E2). reflexivity. }
  rewrite E2, E3. split; [reflexivity|]. split; [reflexivity|]. clear. unfold list_sum. induction l as [|p k IH]; [reflexivity|]. cbn. destruct (p_grad p); cbn; lia.
Qed.
Print Assumptions C97_count.

(* ---- what does not hold ---- *)
Definition ex_xy := Param 1 2 true.
Definition ex_z := Param 2 1 true.
Definition ex_span := Param 3 2 true.
Definition ex_b := Param 9 1 true.
Definition ex_panel := Rect ex_xy ex_z ex_span.
Definition sgd (lr : R) : settings := [("lr", Num lr); ("momentum", Num 0)].

(* a volume with a budget whose wrapper has no budget optimiser (the default): the budget weights are counted as trainable, and never change *)
Theorem C97_budget_refuted : exists V os,
  build_panel (sgd 1) (sgd 1) (sgd 1) None V = Ok os /\ separate V /\
  exists q, In q (parameters V) /\ p_grad q = true /\ ~ In q (owned os) /\
    forall (rule : settings -> param -> R -> R) m, step_all rule os m (p_id q) = m (p_id q).
Proof.
  exists (Vol [Panels [ex_panel]; Passive] (Some ex_b)). eexists. split; [reflexivity|]. split.
  { unfold separate. cbn. repeat (constructor; [cbn; intuition discriminate|]). constructor. }
  exists ex_b. split; [left; reflexivity|]. split; [reflexivity|]. split; [cbn; intuition discriminate|]. intros rule m. reflexivity.
Qed.
Print Assumptions C97_budget_refuted.

(* a panel object that is used in two places is updated twice in a step *)
Theorem C97_shared_refuted : exists V os,
  build_panel (sgd 1) (sgd 1) (sgd 1) None V = Ok os /\
  exists (rule : settings -> param -> R -> R), rule (sgd 1) ex_z 0%R = 1%R /\ In ex_z (owned os) /\ step_all rule os (fun _ => 0%R) (p_id ex_z) = 2%R.
Proof.
  exists (Vol [Panels [ex_panel]; Passive; Panels [ex_panel]] None). eexists. split; [reflexivity|].
  exists (fun _ _ w => (w + 1)%R). split; [lra|]. split; [cbn; tauto|]. cbn. unfold upd. cbn. lra.
Qed.
Print Assumptions C97_shared_refuted.

(* with more than one group (given optimisers) setting the learning rate leaves the other groups as they are *)
Theorem C97_groups_refuted : exists os os',
  set_opt_lr 0 "o" os = Ok os' /\ get_opt_lr os' "o" = Ok (Num 0) /\
  exists g, dget "o" os' = Ok [Group [ex_xy] (sgd 0); g] /\ In ex_z (g_params g) /\ dget "lr" (g_set g) = Ok (Num 1).
Proof.
  exists [("o", [Group [ex_xy] (sgd 1); Group [ex_z] (sgd 1)])]. eexists. split; [reflexivity|]. split; [reflexivity|].
  exists (Group [ex_z] (sgd 1)). split; [reflexivity|]. split; [left; reflexivity|reflexivity].
Qed.
Print Assumptions C97_groups_refuted.

(* an optimiser that knows neither betas nor momentum: getting fails, setting adds a setting that it does not have *)
Theorem C97_momentum_refuted : exists os os',
  get_opt_mom os "o" = Err KeyError /\ set_opt_mom 1 "o" os = Ok os' /\ get_opt_mom os' "o" = Ok (Num 1).
Proof.
  exists [("o", [Group [ex_xy] [("lr", Num 1)]])]. eexists. split; [reflexivity|]. split; reflexivity.
Qed.
Print Assumptions C97_momentum_refuted.

(* two panels above and one below the passive layer, with a budget and all four optimisers *)
Example C97_case :
  let p2 := Rect (Param 4 2 true) (Param 5 1 false) (Param 6 2 true) in
  let p3 := Rect (Param 7 2 true) (Param 8 1 true) (Param 10 2 true) in
  let V := Vol [Panels [ex_panel; p2]; Passive; Panels [p3]] (Some ex_b) in
  separate V /\ get_param_count false V = 16 /\ get_param_count true V = 15 /\
  exists os, build_panel (sgd 1) (sgd 2) (sgd 3) (Some (sgd 4)) V = Ok os /\ get_opt_lr os "z_pos_opt" = Ok (Num 2) /\
    map p_id (owned os) = [1; 4; 7; 2; 5; 8; 3; 6; 10; 9].
Proof.
  cbv zeta. split; [unfold separate; cbn; repeat (constructor; [cbn; intuition discriminate|]); constructor|].
  split; [reflexivity|]. split; [reflexivity|]. eexists. split; [reflexivity|]. split; reflexivity.
Qed.
