(* C109: a saved state is restored in any wrapper that is built alike, into its own objects. *)
From Coq Require Import String Reals Lra.
From Verif Require Import Spec.StateDictSpec Proofs.StateDictP.
Open Scope string_scope.
Open Scope list_scope.

(* C109. What a load does to the detector, for every file and every detector, also when it raises: it raises exactly if a key is missing, a shape does not fit or there
   is a key too many; even then everything in the file that fits has been written, and nothing else has been changed.  Shapes stay. *)
Theorem C109_load :
  forall sd V m r m1, load_state_dict sd V m = (r, m1) ->
  (r = Ok tt \/ r = Err RuntimeError) /\
  (r = Ok tt <-> (forall k c, place V k c -> exists t, loads sd m k c t) /\ (forall k, In k (map fst sd) -> exists c, place V k c)) /\
  (forall c, (forall k, ~ place V k c) -> m1 c = m c) /\
  (forall c, t_shape (m1 c) = t_shape (m c)) /\
  (forall k c, place V k c -> (forall k', place V k' c -> k' = k) ->
     (forall t, loads sd m k c t -> m1 c = t) /\ ((forall t, ~ loads sd m k c t) -> m1 c = m c)).
Proof.
  intros sd V m r m1 H. unfold load_state_dict in H. destruct (load_entries sd (entries V) m) as [ok m2] eqn:E. injection H as Hr <-.
  destruct (load_entries_spec sd (entries V) m ok m2 E) as (S & O & U & Wt).
  split; [destruct (ok && negb (unexpected sd (entries V))); [left|right]; symmetry; exact Hr|].
  split; [|split; [|split; [exact S|]]].
  - assert (K : r = Ok tt <-> ok = true /\ unexpected sd (entries V) = false).
    { rewrite <- Hr. destruct ok, (unexpected sd (entries V)); cbn; split; try discriminate; auto; intros [? ?]; discriminate. }
    rewrite K, O, unexpected_false. split; intros [A B].
    + split; [intros k c Hp; apply fine_loads, A, Hp|]. intros k Hk. apply B in Hk. apply in_map_iff in Hk as ((k' & c) & Ek & Hk). cbn in Ek. subst k'. exists c. exact Hk.
    + split; [intros k c Hp; apply fine_loads, A, Hp|]. intros k Hk. destruct (B k Hk) as (c & Hc). apply in_map with (f := fst) in Hc. exact Hc.
  - intros c N. apply U. intro X. apply in_map_iff in X as ((k & c') & Ec & X). cbn in Ec. subst c'. exact (N k X).
  - intros k c Hp One. assert (m2 c = written sd m k c) as ->.
    { apply Wt; [exact Hp|]. intros k' Hk'. rewrite (One k' Hk'). reflexivity. }
    split; [intros t; apply written_loads|]. intro N. apply written_not. intros (t & X). exact (N t X).
Qed.
Print Assumptions C109_load.

(* C109. The state that a detector had when it was saved is restored in every detector that is built alike with the same shapes, whatever values that has, provided that
   objects it uses in several places have one value in the file. *)
Theorem C109_restored :
  forall V V' m m', same_build V V' ->
  (forall k c c', place V k c -> place V' k c' -> t_shape (m' c') = t_shape (m c)) ->
  (forall k1 k2 c1 c2 c', place V k1 c1 -> place V k2 c2 -> place V' k1 c' -> place V' k2 c' -> m c1 = m c2) ->
  exists m1, load_state_dict (state_dict V m) V' m' = (Ok tt, m1) /\
    (forall k c c', place V k c -> place V' k c' -> m1 c' = m c) /\
    (forall c', (forall k, ~ place V' k c') -> m1 c' = m' c').
Proof.
  intros V V' m m' B Sh Ag. destruct (load_state_dict (state_dict V m) V' m') as [r m1] eqn:E. exists m1.
  destruct (C109_load _ _ _ _ _ E) as (_ & Ok1 & Un & _ & _).
  assert (L : forall k c c', place V k c -> place V' k c' -> loads (state_dict V m) m' k c' (m c)).
  { intros k c c' H H'. exists (m c). split; [apply at_state; exact H|]. left. split; [symmetry; exact (Sh k c c' H H')|reflexivity]. }
  split; [|split; [|exact Un]].
  - f_equal. apply Ok1. split.
    + intros k c' H'. destruct (place_same V' V k c' (same_build_sym _ _ B) H') as (c & H). exists (m c). auto.
    + intros k Hk. rewrite state_keys in Hk. apply in_map_iff in Hk as ((k' & c) & Ek & Hk). cbn in Ek. subst k'. exact (place_same V V' k c B Hk).
  - intros k c c' H H'. unfold load_state_dict in E. destruct (load_entries (state_dict V m) (entries V') m') as [ok m2] eqn:E2. injection E as _ <-.
    destruct (load_entries_spec _ _ _ _ _ E2) as (_ & _ & _ & Wt). rewrite (Wt k c' H'); [apply written_loads, L; assumption|].
    intros k' Hk'. destruct (place_same V' V k' c' (same_build_sym _ _ B) Hk') as (c2 & H2).
    rewrite (written_loads _ _ _ _ _ (L k' c2 c' H2 Hk')), (written_loads _ _ _ _ _ (L k c c' H H')). exact (Ag k' k c2 c c' H2 H Hk' H').
Qed.
Print Assumptions C109_restored.

(* ... as is so if its panels have their own objects, as new panels and heat maps have *)
Theorem C109_own :
  forall V V' m m', same_build V V' -> unshared V' ->
  (forall k c c', place V k c -> place V' k c' -> t_shape (m' c') = t_shape (m c)) ->
  exists m1, load_state_dict (state_dict V m) V' m' = (Ok tt, m1) /\
    (forall k c c', place V k c -> place V' k c' -> m1 c' = m c) /\
    (forall c', (forall k, ~ place V' k c') -> m1 c' = m' c').
Proof.
  intros V V' m m' B U Sh. apply C109_restored; [exact B|exact Sh|]. intros k1 k2 c1 c2 c' H1 H2 H3 H4. f_equal. exact (twin_objects V V' k1 k2 c1 c2 c' U H1 H2 H3 H4).
Qed.
Print Assumptions C109_own.

(* a sigmoid panel and a heat map, with a budget, loaded into another such detector *)
Definition ex_V : det := Detr [Some [DSig 1 2 3 4 5 6 7]; None; Some [DHeat 8 9 10 11 12 13 14 15 16]] (Some 0).
Definition ex_V' : det := Detr [Some [DSig 21 22 23 24 25 26 27]; None; Some [DHeat 28 29 30 31 32 33 34 35 36]] (Some 20).
Definition ex_m : mem := fun c => Ten [1] [INR c].
Example C109_case :
  same_build ex_V ex_V' /\ unshared ex_V' /\ (forall k c c', place ex_V k c -> place ex_V' k c' -> t_shape (ex_m c') = t_shape (ex_m c)) /\
  place ex_V [Nm "layers"; Ix 2; Nm "panels"; Ix 0; Nm "gmm"; Nm "sig"] 9 /\ place ex_V' [Nm "layers"; Ix 2; Nm "panels"; Ix 0; Nm "gmm"; Nm "sig"] 29.
Proof.
  split; [split; [reflexivity|split; discriminate]|]. split; [unfold unshared; cbn; repeat (constructor; [cbn; intuition discriminate|]); constructor|].
  split; [reflexivity|]. split; cbn; tauto.
Qed.

(* C109. Two panels with different smoothness, saved; then a smoothness schedule begins, which gives one object to both; the load raises nothing, but both panels get the
   smoothness of the second. *)
Theorem C109_schedule_refuted :
  exists V m c s, unshared V /\ (forall k, ~ place V k c) /\
  let '(V1, m1) := schedule_begins c s V m in
  exists m2 k c0 c1, load_state_dict (state_dict V m) V1 m1 = (Ok tt, m2) /\ place V k c0 /\ place V1 k c1 /\ m c0 = Ten [1] [(1/10)%R] /\ m2 c1 = Ten [1] [1%R].
Proof.
  exists (Detr [Some [DSig 1 2 3 4 5 6 7; DSig 11 12 13 14 15 16 17]] None), (fun c => if Nat.eqb c 7 then Ten [1] [(1/10)%R] else Ten [1] [1%R]), 20, 2%R.
  split; [unfold unshared; cbn; repeat (constructor; [cbn; intuition discriminate|]); constructor|].
  split; [intros k H; cbn in H; repeat (destruct H as [H|H]; [discriminate H|]); destruct H|].
  cbv zeta beta. unfold schedule_begins. eexists _, [Nm "layers"; Ix 0; Nm "panels"; Ix 0; Nm "_smooth"], 7, 20.
  split; [unfold load_state_dict; cbn; reflexivity|]. split; [cbn; tauto|]. split; [cbn; tauto|]. split; reflexivity.
Qed.
Print Assumptions C109_schedule_refuted.

(* C109. In an epoch of the schedule the smoothness is a number, not a vector of one element as in a new panel: what is saved then cannot be loaded into a detector that is
   built anew; all the rest has been written when the exception comes. *)
Theorem C109_new_detector_refuted :
  exists V m c s V' m', unshared V /\ same_build V V' /\ unshared V' /\ (forall k0 c0 c0', place V k0 c0 -> place V' k0 c0' -> t_shape (m' c0') = t_shape (m c0)) /\
  let '(V1, m1) := schedule_epoch c s V m in
  exists m2 k ks cz cs, load_state_dict (state_dict V1 m1) V' m' = (Err RuntimeError, m2) /\
    place V' k cz /\ k = [Nm "layers"; Ix 0; Nm "panels"; Ix 0; Nm "z"] /\ m' cz = Ten [1] [1%R] /\ m2 cz = Ten [1] [2%R] /\
    place V' ks cs /\ ks = [Nm "layers"; Ix 0; Nm "panels"; Ix 0; Nm "_smooth"] /\ m2 cs = m' cs.
Proof.
  exists (Detr [Some [DSig 1 2 3 4 5 6 7]] None), (fun _ => Ten [1] [2%R]), 8, (1/2)%R, (Detr [Some [DSig 1 2 3 4 5 6 7]] None), (fun _ => Ten [1] [1%R]).
  split; [unfold unshared; cbn; repeat (constructor; [cbn; intuition discriminate|]); constructor|].
  split; [split; [reflexivity|tauto]|].
  split; [unfold unshared; cbn; repeat (constructor; [cbn; intuition discriminate|]); constructor|].
  split; [reflexivity|]. cbv zeta beta. unfold schedule_epoch. eexists _, _, _, 2, 7.
  split; [unfold load_state_dict; cbn; reflexivity|]. split; [cbn; tauto|]. split; [reflexivity|]. split; [reflexivity|]. split; [reflexivity|]. split; [cbn; tauto|]. split; reflexivity.
Qed.
Print Assumptions C109_new_detector_refuted.

(* C109. "A load that raises leaves the detector as it was" is false: the state of a panel loaded into a heat map raises, but has moved the heat map *)
Theorem C109_partly_refuted :
  exists V V' m m' m1 cz, load_state_dict (state_dict V m) V' m' = (Err RuntimeError, m1) /\
    place V' [Nm "layers"; Ix 0; Nm "panels"; Ix 0; Nm "z"] cz /\ m1 cz <> m' cz.
Proof.
  exists (Detr [Some [DPanel 1 2 3 4 5 6]] None), (Detr [Some [DHeat 11 12 13 14 15 16 17 18 19]] None), (fun _ => Ten [1] [2%R]), (fun _ => Ten [1] [1%R]). eexists _, 14.
  split; [unfold load_state_dict; cbn; reflexivity|]. split; [cbn; tauto|]. cbn. intro H. injection H as H. lra.
Qed.
Print Assumptions C109_partly_refuted.

(* C109. If all sigmoid panels had the same smoothness when they were saved, a schedule in between does no harm: all is restored, the smoothness as a number. *)
Theorem C109_after_schedule :
  forall V m m' c s s0, unshared V -> (forall k, ~ place V k c) -> (forall k c0, place V k c0 -> t_shape (m' c0) = t_shape (m c0)) ->
  (forall k c0, place V k c0 -> In (Nm "_smooth") k -> m c0 = Ten [1] [s0]) ->
  let '(V1, m1) := schedule_epoch c s V m' in
  exists m2, load_state_dict (state_dict V m) V1 m1 = (Ok tt, m2) /\
    forall k c0 c1, place V k c0 -> place V1 k c1 -> (In (Nm "_smooth") k -> m2 c1 = Ten [] [s0]) /\ (~ In (Nm "_smooth") k -> c1 = c0 /\ m2 c1 = m c0).
Proof.
  intros V m m' c s s0 U Fr Sh Sm. unfold schedule_epoch.
  assert (T : forall k c0 c1, place V k c0 -> place (set_smooth c V) k c1 -> (smooth_key k = true /\ c1 = c) \/ (smooth_key k = false /\ c1 = c0 /\ c0 <> c)).
  { intros k c0 c1 H H1. apply place_smooth in H1 as (c2 & H2 & ->). rewrite (place_fun _ _ _ _ H2 H). destruct (smooth_key k); [left; auto|right]. split; [reflexivity|]. split; [reflexivity|].
    intros ->. exact (Fr k H). }
  assert (Bc : forall k c0 c1 t, place V k c0 -> place (set_smooth c V) k c1 -> becomes (put m' c (Ten [] [s]) c1) (m c0) t -> t = if smooth_key k then Ten [] [s0] else m c0).
  { intros k c0 c1 t H H1 X. destruct (T _ _ _ H H1) as [[K ->]|(K & -> & N)]; rewrite K; unfold put in X.
    - rewrite Nat.eqb_refl in X. rewrite (Sm k c0 H (proj1 (smooth_key_in k) K)) in X. destruct X as [[X _]|(_ & n & x & l & _ & X & ->)]; [discriminate X|]. injection X as -> ->. reflexivity.
    - rewrite (proj2 (Nat.eqb_neq _ _) N) in X. destruct X as [[_ X]|(X & n & x & l & Y & _)]; [exact X|]. rewrite (Sh k c0 H) in X. congruence. }
  destruct (restored_general V (set_smooth c V) m (put m' c (Ten [] [s])) (build_smooth c V)) as (m2 & E & R & _).
  - intros k c0 c1 H H1. destruct (T _ _ _ H H1) as [[K ->]|(K & -> & N)]; unfold put.
    + exists (Ten [] [s0]). rewrite Nat.eqb_refl. right. split; [reflexivity|]. rewrite (Sm k c0 H (proj1 (smooth_key_in k) K)). exists 1, s0, []. auto.
    + exists (m c0). rewrite (proj2 (Nat.eqb_neq _ _) N). left. split; [symmetry; exact (Sh k c0 H)|reflexivity].
  - intros k1 k2 c1 c2 c' t1 t2 H1 H2 H3 H4 X1 X2. rewrite (Bc _ _ _ _ H1 H3 X1), (Bc _ _ _ _ H2 H4 X2).
    destruct (T _ _ _ H1 H3) as [[K ->]|(K & -> & N)], (T _ _ _ H2 H4) as [[K' E']|(K' & E' & N')]; rewrite K, K'; try congruence.
  - exists m2. split; [exact E|]. intros k c0 c1 H H1. destruct (T _ _ _ H H1) as [[K ->]|(K & -> & N)].
    + split; [intros _|intro X; exfalso; apply X, smooth_key_in, K]. apply (R k c0 c _ H H1). unfold put. rewrite Nat.eqb_refl. right. split; [reflexivity|].
      rewrite (Sm k c0 H (proj1 (smooth_key_in k) K)). exists 1, s0, []. auto.
    + split; [intro X; apply smooth_key_in in X; congruence|]. intros _. split; [reflexivity|]. apply (R k c0 c0 _ H H1). unfold put. rewrite (proj2 (Nat.eqb_neq _ _) N). left.
      split; [symmetry; exact (Sh k c0 H)|reflexivity].
Qed.
Print Assumptions C109_after_schedule.
Example C109_after_schedule_case :
  let V := Detr [Some [DSig 1 2 3 4 5 6 7; DSig 11 12 13 14 15 16 17]] None in let m := fun c => Ten [1] [if Nat.eqb (c mod 10) 7 then (1/10)%R else INR c] in
  unshared V /\ (forall k, ~ place V k 20) /\ (forall k c0, place V k c0 -> t_shape (ex_m c0) = t_shape (m c0)) /\
  (forall k c0, place V k c0 -> In (Nm "_smooth") k -> m c0 = Ten [1] [(1/10)%R]) /\
  let '(V1, m1) := schedule_epoch 20 3 V ex_m in exists m2, load_state_dict (state_dict V m) V1 m1 = (Ok tt, m2) /\ m2 20 = Ten [] [(1/10)%R] /\ m2 12 = Ten [1] [INR 12].
Proof.
  cbv zeta. split; [unfold unshared; cbn; repeat (constructor; [cbn; intuition discriminate|]); constructor|].
  split; [intros k H; cbn in H; repeat (destruct H as [H|H]; [discriminate H|]); destruct H|]. split; [reflexivity|].
  split; [intros k c0 H I; cbn in H; repeat (destruct H as [H|H]; [injection H as <- <-; first [reflexivity|exfalso; cbn in I; intuition discriminate]|]); destruct H|].
  unfold schedule_epoch. eexists. split; [unfold load_state_dict; cbn -[INR]; reflexivity|]. split; reflexivity.
Qed.

(* C109. Saving one wrapper and loading another that is built alike, of any kind and with any optimisers: the detector is restored; every optimiser whose name has _opt in
   it gets the settings and the states of the saved one, parameter by parameter, for its own parameters; every other optimiser stays as it was. *)
Theorem C109_wrapper :
  forall St assign (w w' : wrap St) m m',
  same_build (w_det w) (w_det w') -> same_shapes (w_det w) m (w_det w') m' ->
  (forall k1 k2 c1 c2 c', place (w_det w) k1 c1 -> place (w_det w) k2 c2 -> place (w_det w') k1 c' -> place (w_det w') k2 c' -> m c1 = m c2) ->
  Forall2 fits_opt (w_opts w) (w_opts w') -> NoDup (map fst (w_opts w)) -> ~ In "volume" (map fst (w_opts w)) -> ~ In "budget_weights" (map fst (w_opts w)) ->
  exists w1 m1, load assign (save w m) w' m' = (Ok tt, (w1, m1)) /\ w_det w1 = w_det w' /\ restored (w_det w) m (w_det w') m' m1 /\ all3 (w_opts w) (w_opts w') (w_opts w1).
Proof. exact (fun St => @load_wrapper St). Qed.
Print Assumptions C109_wrapper.

(* C109. If the groups of an optimiser do not have the sizes of the saved ones, ValueError is raised; the detector and the optimisers before it are then restored, it
   and those after it are as they were. *)
Theorem C109_sizes :
  forall St assign (w w' : wrap St) m m' k o o' a b a' b',
  same_build (w_det w) (w_det w') -> same_shapes (w_det w) m (w_det w') m' ->
  (forall k1 k2 c1 c2 c', place (w_det w) k1 c1 -> place (w_det w) k2 c2 -> place (w_det w') k1 c' -> place (w_det w') k2 c' -> m c1 = m c2) ->
  w_opts w = a ++ (k, o) :: b -> w_opts w' = a' ++ (k, o') :: b' -> Forall2 fits_opt a a' -> is_opt k = true -> sizes (o_groups o) <> sizes (o_groups o') ->
  NoDup (map fst (w_opts w)) -> ~ In "volume" (map fst (w_opts w)) -> ~ In "budget_weights" (map fst (w_opts w)) ->
  exists w1 m1 a1, load assign (save w m) w' m' = (Err ValueError, (w1, m1)) /\ w_det w1 = w_det w' /\ restored (w_det w) m (w_det w') m' m1 /\
    w_opts w1 = a1 ++ (k, o') :: b' /\ all3 a a' a1.
Proof.
  intros St assign w w' m m' k o o' a b a' b' B Sh Ag Eo Eo' F Io S N NV NB. destruct (load_det assign w w' m m' B Sh Ag N NV NB) as (m1 & E & R).
  rewrite Eo, Eo', map_app in E. cbn [map fst snd] in E. rewrite Eo, map_app in N. cbn [map fst] in N.
  destruct (load_opts_part a a' [] ((k, IOpt (opt_dict o)) :: map (fun ko => (fst ko, IOpt (opt_dict (snd ko)))) b) ((k, o') :: b') F) as (a1 & E1 & A3).
  { cbn [map app]. rewrite (fits_names _ _ F). clear - N. induction (map fst a) as [|x l IH]; [constructor|]. cbn [app] in N. inversion N as [|? ? N1 N2]; subst.
    constructor; [intro X; apply N1, in_or_app; left; exact X|exact (IH N2)]. }
  cbn [app] in E1. rewrite E1 in E. cbn [load_opts] in E. rewrite Io in E.
  assert (Nk : ~ In k (map fst a1)).
  { assert (map fst a1 = map fst a) as ->; [clear - A3; induction A3 as [|x y z l1 l2 l3 [H _] _ IH]; [reflexivity|]; cbn; rewrite H, IH; reflexivity|].
    apply NoDup_remove_2 in N. intro X. apply N, in_or_app. left. exact X. }
  rewrite (dget_mid _ _ _ _ Nk), (load_opt_err o o' S) in E. exists (Wrapr (w_det w') (a1 ++ (k, o') :: b')), m1, a1. auto.
Qed.
Print Assumptions C109_sizes.
(* a file of one panel's wrapper whose optimiser had one parameter; here it has two *)
Example C109_sizes_case :
  let V := Detr [Some [DPanel 1 2 3 4 5 6]] None in
  let w := Wrapr V [("adam", Optim (St := unit) [] (fun _ => None)); ("all_opt", Optim [Group [Param 1 2 true] []] (fun _ => None))] in
  let w' := Wrapr V [("adam", Optim [] (fun _ => None)); ("all_opt", Optim [Group [Param 1 2 true; Param 2 1 true] []] (fun _ => None))] in
  same_build V V /\ same_shapes V ex_m V ex_m /\ Forall2 fits_opt (firstn 1 (w_opts w)) (firstn 1 (w_opts w')) /\ is_opt "all_opt" = true /\
  fst (load (fun _ m => (Ok tt, m)) (save w ex_m) w' ex_m) = Err ValueError.
Proof.
  cbv zeta. split; [split; [reflexivity|tauto]|]. split; [intros k c c' _ _; reflexivity|]. split; [constructor; [split; [reflexivity|discriminate]|constructor]|]. split; reflexivity.
Qed.

(* C109. The detector is loaded first: whatever happens with the optimisers, it is then loaded. *)
Theorem C109_order :
  forall St assign (w : wrap St) (f : file St) m r w1 m1 sd, load assign f w m = (r, (w1, m1)) -> dget "volume" f = Ok (IVol sd) -> dhas "budget_weights" f = false ->
  m1 = snd (load_state_dict sd (w_det w) m) /\ w_det w1 = w_det w /\ (fst (load_state_dict sd (w_det w) m) <> Ok tt -> w_opts w1 = w_opts w /\ r = Err RuntimeError).
Proof.
  intros St assign w f m r w1 m1 sd H V B. unfold load in H. rewrite V, B in H. destruct (load_state_dict sd (w_det w) m) as [r0 m0] eqn:E. cbn [fst snd].
  destruct (C109_load _ _ _ _ _ E) as ([->| ->] & _).
  - destruct (load_opts f (w_opts w)) as [r2 os]. injection H as <- <- <-. split; [reflexivity|]. split; [reflexivity|]. intro X. congruence.
  - injection H as <- <- <-. split; [reflexivity|]. split; [reflexivity|]. intros _. split; reflexivity.
Qed.
Print Assumptions C109_order.

(* C109. PanelVolumeWrapper.from_save: from a file written by a wrapper that was made with some settings, for a detector built alike, the new wrapper has the detector of the
   file and the settings and states of the optimisers of the file; the settings that were given have no effect. *)
Theorem C109_from_panel :
  forall St assign (w : wrap St) m m0 V' m' os0 xy0 z0 span0 budget0 xy z span budget,
  build_panel xy0 z0 span0 budget0 (vol_of (w_det w) m0) = Ok os0 -> made_as os0 w -> unshared (w_det w) -> (budget0 = None <-> budget = None) ->
  devs V' <> [] -> (forall d, In d (devs V') -> kind_of d <> KHeat) ->
  same_build (w_det w) V' -> unshared V' -> same_shapes (w_det w) m V' m' ->
  exists os w1 m1, build_panel xy z span budget (vol_of V' m') = Ok os /\ from_save_panel assign (save w m) xy z span budget V' m' = (Ok w1, m1) /\
    w_det w1 = V' /\ restored (w_det w) m V' m' m1 /\ all3 (w_opts w) (new_opts os) (w_opts w1).
Proof.
  intros St assign w m m0 V' m' os0 xy0 z0 span0 budget0 xy z span budget B0 Ma U0 Bud Ne Re SB U Sh.
  pose proof (build_devs _ _ SB) as Kd.
  assert (Re0 : forall d, In d (devs (w_det w)) -> kind_of d <> KHeat).
  { intros d Hd K. apply in_map with (f := kind_of) in Hd. rewrite Kd, in_map_iff in Hd. destruct Hd as (d' & E & Hd'). apply (Re d' Hd'). congruence. }
  assert (Ne0 : devs (w_det w) <> []). { intro E. rewrite E in Kd. cbn in Kd. destruct (devs V'); [congruence|discriminate Kd]. }
  assert (Ln : length (devs (w_det w)) = length (devs V')) by (apply (f_equal (@length kind)) in Kd; rewrite !map_length in Kd; exact Kd).
  assert (G : forall V0 n a b c bu, devs V0 <> [] -> (forall d, In d (devs V0) -> kind_of d <> KHeat) ->
    build_panel a b c bu (vol_of V0 n) =
    let os := [("xy_pos_opt", [Group (map (fun x => par n (xy_of x)) (devs V0)) a]); ("z_pos_opt", [Group (map (fun x => par n (z_of x)) (devs V0)) b]);
               ("xy_span_opt", [Group (map (fun x => par n (span_of x)) (devs V0)) c])] in
    match bu with None => Ok os | Some d => match d_weights V0 with None => Err AttributeError | Some q => Ok (os ++ [("budget_opt", [Group [par n q] d])]) end end).
  { intros V0 n a b c bu N R. unfold build_panel. rewrite (opt_of_devs get_xy xy_of), (opt_of_devs get_z z_of), (opt_of_devs get_span span_of); try exact N.
    - cbn [bind]. destruct bu; [|reflexivity]. cbn [vol_of vo_budget]. destruct (d_weights V0); reflexivity.
    - intros x Hx. destruct x; try reflexivity. exfalso. exact (R _ Hx eq_refl).
    - intros x Hx. destruct x; reflexivity.
    - intros x Hx. destruct x; try reflexivity. exfalso. exact (R _ Hx eq_refl). }
  rewrite (G _ _ _ _ _ _ Ne0 Re0) in B0. pose proof (G V' m' xy z span budget Ne Re) as G1. cbv zeta in B0, G1.
  assert (Pk : forall V0 f, unshared V0 -> (forall x, In (f x) (dev_objects x)) -> NoDup (map f (devs V0))).
  { intros V0 f Uv Hf. apply (NoDup_pick f dev_objects _ Hf). apply unshared_devs. exact Uv. }
  assert (F3 : forall (nm : string) (o : optim St) (f : dev -> nat) d d', (forall x, In (f x) (dev_objects x)) ->
    map g_params (o_groups o) = map g_params [Group (map (fun x => par m0 (f x)) (devs (w_det w))) d] -> fits_new (nm, o) (nm, [Group (map (fun x => par m' (f x)) (devs V')) d'])).
  { intros nm o f d d' Hf E. split; [reflexivity|]. cbn [snd]. destruct (o_groups o) as [|g [|g' l]] eqn:Eo; try discriminate E. cbn [map g_params] in E. injection E as E.
    split; [unfold sizes; cbn [map g_params]; rewrite E, !map_length, Ln; reflexivity|].
    split; [unfold ids; cbn [flat_map g_params]; rewrite E, app_nil_r, map_map; exact (Pk _ f U0 Hf)|]. rewrite ids_group. exact (Pk _ f U Hf). }
  assert (Hx : forall x, In (xy_of x) (dev_objects x)) by (intros []; cbn; auto). assert (Hz : forall x, In (z_of x) (dev_objects x)) by (intros []; cbn; auto).
  assert (Hs : forall x, In (span_of x) (dev_objects x)) by (intros []; cbn; auto).
  assert (Fin : exists os, build_panel xy z span budget (vol_of V' m') = Ok os /\ Forall2 fits_new (w_opts w) os /\ NoDup (map fst (w_opts w)) /\ Forall (fun k => is_opt k = true) (map fst (w_opts w))).
  { rewrite G1. unfold made_as in Ma. destruct budget0 as [d0|].
    - destruct budget as [d|]; [|discriminate (proj2 Bud eq_refl)]. destruct (d_weights (w_det w)) as [q|] eqn:Ew; [|discriminate B0]. injection B0 as <-. cbn [app] in Ma.
      destruct (d_weights V') as [q'|] eqn:Ew'; [|exfalso; destruct SB as [_ SB]; rewrite Ew, Ew' in SB; discriminate (proj2 SB eq_refl)].
      eexists. split; [reflexivity|]. inversion Ma as [|? [n1 o1] ? r1 [N1 P1] M1 e1]; subst. inversion M1 as [|? [n2 o2] ? r2 [N2 P2] M2]; subst. inversion M2 as [|? [n3 o3] ? r3 [N3 P3] M3]; subst.
      inversion M3 as [|? [n4 o4] ? r4 [N4 P4] M4]; subst. inversion M4; subst. cbn [fst snd] in *. subst n1 n2 n3 n4. cbn [app].
      split; [|cbn; split; [repeat (constructor; [cbn; intuition discriminate|]); constructor|repeat constructor]].
      constructor; [exact (F3 _ _ xy_of _ _ Hx P1)|]. constructor; [exact (F3 _ _ z_of _ _ Hz P2)|]. constructor; [exact (F3 _ _ span_of _ _ Hs P3)|]. constructor; [|constructor].
      split; [reflexivity|]. cbn [snd]. destruct (o_groups o4) as [|g [|g' l]] eqn:Eo; try discriminate P4. cbn [map g_params] in P4. injection P4 as P4.
      split; [unfold sizes; cbn [map g_params]; rewrite P4; reflexivity|]. split; [unfold ids; cbn [flat_map g_params]; rewrite P4|unfold ids]; cbn; constructor; auto; constructor.
    - destruct budget as [d|]; [discriminate (proj1 Bud eq_refl)|]. injection B0 as <-. eexists. split; [reflexivity|].
      inversion Ma as [|? [n1 o1] ? r1 [N1 P1] M1 e1]; subst. inversion M1 as [|? [n2 o2] ? r2 [N2 P2] M2]; subst. inversion M2 as [|? [n3 o3] ? r3 [N3 P3] M3]; subst.
      inversion M3; subst. cbn [fst snd] in *. subst n1 n2 n3.
      split; [|cbn; split; [repeat (constructor; [cbn; intuition discriminate|]); constructor|repeat constructor]].
      repeat (constructor; [first [exact (F3 _ _ xy_of _ _ Hx P1)|exact (F3 _ _ z_of _ _ Hz P2)|exact (F3 _ _ span_of _ _ Hs P3)]|]). constructor. }
  destruct Fin as (os & Eb & F2 & Nd & Op). exists os. destruct (from_new assign w m V' m' os SB U Sh F2 Nd Op) as (w1 & m1 & E & R). exists w1, m1. split; [exact Eb|].
  split; [unfold from_save_panel; rewrite Eb; exact E|exact R].
Qed.
Print Assumptions C109_from_panel.

(* C109. The same for HeatMapVolumeWrapper.from_save *)
Theorem C109_from_heat :
  forall St assign (w : wrap St) m m0 V' m' os0 mu0 norm0 sig0 z0 mu norm sig z,
  build_heat mu0 norm0 sig0 z0 (vol_of (w_det w) m0) = Ok os0 -> made_as os0 w -> unshared (w_det w) ->
  devs V' <> [] -> (forall d, In d (devs V') -> kind_of d = KHeat) ->
  same_build (w_det w) V' -> unshared V' -> same_shapes (w_det w) m V' m' ->
  exists os w1 m1, build_heat mu norm sig z (vol_of V' m') = Ok os /\ from_save_heat assign (save w m) mu norm sig z V' m' = (Ok w1, m1) /\
    w_det w1 = V' /\ restored (w_det w) m V' m' m1 /\ all3 (w_opts w) (new_opts os) (w_opts w1).
Proof.
  intros St assign w m m0 V' m' os0 mu0 norm0 sig0 z0 mu norm sig z B0 Ma U0 Ne Re SB U Sh.
  pose proof (build_devs _ _ SB) as Kd.
  assert (Re0 : forall d, In d (devs (w_det w)) -> kind_of d = KHeat).
  { intros d Hd. apply in_map with (f := kind_of) in Hd. rewrite Kd, in_map_iff in Hd. destruct Hd as (d' & E & Hd'). rewrite <- E. exact (Re d' Hd'). }
  assert (Ne0 : devs (w_det w) <> []). { intro E. rewrite E in Kd. cbn in Kd. destruct (devs V'); [congruence|discriminate Kd]. }
  assert (Ln : length (devs (w_det w)) = length (devs V')) by (apply (f_equal (@length kind)) in Kd; rewrite !map_length in Kd; exact Kd).
  assert (G : forall V0 n a b c e, devs V0 <> [] -> (forall d, In d (devs V0) -> kind_of d = KHeat) ->
    build_heat a b c e (vol_of V0 n) =
    Ok [("mu_opt", [Group (map (fun x => par n (xy_of x)) (devs V0)) a]); ("norm_opt", [Group (map (fun x => par n (span_of x)) (devs V0)) b]);
        ("sig_opt", [Group (map (fun x => par n (sig_of x)) (devs V0)) c]); ("z_pos_opt", [Group (map (fun x => par n (z_of x)) (devs V0)) e])]).
  { intros V0 n a b c e N R. unfold build_heat. rewrite (opt_of_devs get_mu xy_of), (opt_of_devs get_norm span_of), (opt_of_devs get_sig sig_of), (opt_of_devs get_z z_of); try exact N;
      try reflexivity; intros x Hx; specialize (R x Hx); destruct x; try discriminate R; reflexivity. }
  rewrite (G _ _ _ _ _ _ Ne0 Re0) in B0. injection B0 as <-. pose proof (G V' m' mu norm sig z Ne Re) as G1.
  assert (Pk : forall V0 f, unshared V0 -> (forall x, In (f x) (dev_objects x)) -> NoDup (map f (devs V0))).
  { intros V0 f Uv Hf. apply (NoDup_pick f dev_objects _ Hf). apply unshared_devs. exact Uv. }
  assert (F3 : forall (nm : string) (o : optim St) (f : dev -> nat) d d', (forall x, In (f x) (dev_objects x)) ->
    map g_params (o_groups o) = map g_params [Group (map (fun x => par m0 (f x)) (devs (w_det w))) d] -> fits_new (nm, o) (nm, [Group (map (fun x => par m' (f x)) (devs V')) d'])).
  { intros nm o f d d' Hf E. split; [reflexivity|]. cbn [snd]. destruct (o_groups o) as [|g [|g' l]] eqn:Eo; try discriminate E. cbn [map g_params] in E. injection E as E.
    split; [unfold sizes; cbn [map g_params]; rewrite E, !map_length, Ln; reflexivity|].
    split; [unfold ids; cbn [flat_map g_params]; rewrite E, app_nil_r, map_map; exact (Pk _ f U0 Hf)|]. rewrite ids_group. exact (Pk _ f U Hf). }
  assert (Hx : forall x, In (xy_of x) (dev_objects x)) by (intros []; cbn; auto). assert (Hz : forall x, In (z_of x) (dev_objects x)) by (intros []; cbn; auto).
  assert (Hs : forall x, In (span_of x) (dev_objects x)) by (intros []; cbn; auto). assert (Hg : forall x, In (sig_of x) (dev_objects x)) by (intros []; cbn; auto).
  unfold made_as in Ma. inversion Ma as [|? [n1 o1] ? r1 [N1 P1] M1 e1 Eopts]; subst. inversion M1 as [|? [n2 o2] ? r2 [N2 P2] M2]; subst. inversion M2 as [|? [n3 o3] ? r3 [N3 P3] M3]; subst.
  inversion M3 as [|? [n4 o4] ? r4 [N4 P4] M4]; subst. inversion M4; subst. cbn [fst snd] in *. subst n1 n2 n3 n4. symmetry in Eopts.
  match type of G1 with _ = Ok ?os => exists os; destruct (from_new assign w m V' m' os SB U Sh) as (w1 & m1 & E & R) end.
  - rewrite Eopts. constructor; [exact (F3 _ _ xy_of _ mu Hx P1)|]. constructor; [exact (F3 _ _ span_of _ norm Hs P2)|]. constructor; [exact (F3 _ _ sig_of _ sig Hg P3)|].
    constructor; [exact (F3 _ _ z_of _ z Hz P4)|]. constructor.
  - rewrite Eopts. cbn. repeat (constructor; [cbn; intuition discriminate|]); constructor.
  - rewrite Eopts. cbn. repeat constructor.
  - exists w1, m1. split; [exact G1|]. split; [unfold from_save_heat; rewrite G1; exact E|rewrite <- Eopts; exact R].
Qed.
Print Assumptions C109_from_heat.

(* C109. ArbVolumeWrapper.from_save, with optimisers of any names that are given *)
Theorem C109_from_arb :
  forall St assign (w : wrap St) m os V' m', same_build (w_det w) V' -> unshared V' -> same_shapes (w_det w) m V' m' ->
  Forall2 fits_opt (w_opts w) os -> NoDup (map fst (w_opts w)) -> ~ In "volume" (map fst (w_opts w)) -> ~ In "budget_weights" (map fst (w_opts w)) ->
  exists w1 m1, from_save_arb assign (save w m) os V' m' = (Ok w1, m1) /\ w_det w1 = V' /\ restored (w_det w) m V' m' m1 /\ all3 (w_opts w) os (w_opts w1).
Proof.
  intros St assign w m os V' m' B U Sh F N NV NB. destruct (load_wrapper assign w (Wrapr V' os) m m' B Sh) as (w1 & m1 & E & R); try assumption.
  - intros k1 k2 c1 c2 c' H1 H2 H3 H4. f_equal. exact (twin_objects _ _ k1 k2 c1 c2 c' U H1 H2 H3 H4).
  - exists w1, m1. split; [unfold from_save_arb, then_load; rewrite E; reflexivity|exact R].
Qed.
Print Assumptions C109_from_arb.

(* a detector of one panel with momentum in its z optimiser, and a new one, with another learning rate *)
Definition ex_st : list (string * optim nat) :=
  [("xy_pos_opt", Optim [Group [Param 1 2 true] [("lr", Num 1)]] (fun _ => None)); ("z_pos_opt", Optim [Group [Param 2 1 true] [("lr", Num 3)]] (fun c => if Nat.eqb c 2 then Some 8 else None));
   ("xy_span_opt", Optim [Group [Param 3 2 true] [("lr", Num 5)]] (fun _ => None))].
Definition ex_w : wrap nat := Wrapr (Detr [Some [DPanel 1 2 3 4 5 6]; None] None) ex_st.
Definition ex_n : mem := fun c => Ten (if Nat.eqb (c mod 10) 2 then [1] else [2]) [INR c; INR c].
Example C109_from_case :
  let V' := Detr [Some [DPanel 11 12 13 14 15 16]; None] None in
  (exists os0, build_panel [("lr", Num 1)] [("lr", Num 3)] [("lr", Num 9)] None (vol_of (w_det ex_w) ex_n) = Ok os0 /\ made_as os0 ex_w) /\ unshared (w_det ex_w) /\
  devs V' <> [] /\ (forall d, In d (devs V') -> kind_of d <> KHeat) /\ same_build (w_det ex_w) V' /\ unshared V' /\ same_shapes (w_det ex_w) ex_n V' ex_n /\
  exists w1 m1 o1, from_save_panel (fun _ m => (Ok tt, m)) (save ex_w ex_n) [("lr", Num 7)] [("lr", Num 7)] [("lr", Num 7)] None V' ex_n = (Ok w1, m1) /\
    m1 12 = ex_n 2 /\ In ("z_pos_opt", o1) (w_opts w1) /\ its_settings (o_groups o1) = [[("lr", Num 3)]] /\ o_state o1 12 = Some 8.
Proof.
  cbv zeta. split; [eexists; split; [reflexivity|]; unfold made_as; repeat (constructor; [split; reflexivity|]); constructor|].
  split; [unfold unshared; cbn; repeat (constructor; [cbn; intuition discriminate|]); constructor|]. split; [discriminate|].
  split; [intros d [<-|[]]; discriminate|]. split; [split; [reflexivity|tauto]|]. split; [unfold unshared; cbn; repeat (constructor; [cbn; intuition discriminate|]); constructor|].
  split.
  - intros k c c' H H'. cbn in H, H'. repeat (destruct H as [H|H]; [injection H as <- <-; repeat (destruct H' as [H'|H']; [first [discriminate H'|injection H' as <-; reflexivity]|]); destruct H'|]); destruct H.
  - eexists _, _, _. split; [unfold from_save_panel, then_load, made, load, save, load_state_dict; cbn -[INR]; reflexivity|]. split; [reflexivity|].
    split; [cbn; right; left; reflexivity|]. split; reflexivity.
Qed.

(* C109. An optimiser of another name is saved but not loaded: its learning rate stays what it was *)
Theorem C109_name_refuted :
  exists (w w' : wrap unit) m m' w1 m1, load (fun _ m => (Ok tt, m)) (save w m) w' m' = (Ok tt, (w1, m1)) /\ w_det w1 = w_det w /\
    map fst (w_opts w) = ["adam"] /\ map (fun o => its_settings (o_groups (snd o))) (w_opts w) = [[[("lr", Num 1)]]] /\
    map fst (w_opts w') = ["adam"] /\ map (fun o => its_settings (o_groups (snd o))) (w_opts w1) = [[[("lr", Num 2)]]].
Proof.
  pose (V := Detr [Some [DPanel 1 2 3 4 5 6]] None). pose (o := fun r => Optim (St := unit) [Group [Param 1 2 true] [("lr", Num r)]] (fun _ => None)).
  exists (Wrapr V [("adam", o 1%R)]), (Wrapr V [("adam", o 2%R)]), (fun _ => Ten [2] [1%R; 1%R]), (fun _ => Ten [2] [1%R; 1%R]). eexists _, _.
  split; [unfold load, save, load_state_dict; cbn; reflexivity|]. repeat split.
Qed.
Print Assumptions C109_name_refuted.

(* C109. An optimiser called volume takes the place of the detector in the file, which then cannot be loaded, not even by the wrapper that wrote it *)
Theorem C109_volume_refuted :
  exists (w : wrap unit) m w1 m1, map fst (w_opts w) = ["volume"] /\ devs (w_det w) <> [] /\ load (fun _ m => (Ok tt, m)) (save w m) w m = (Err RuntimeError, (w1, m1)) /\
    forall sd, ~ In ("volume", IVol sd) (save w m).
Proof.
  exists (Wrapr (Detr [Some [DPanel 1 2 3 4 5 6]] None) [("volume", Optim [Group [Param 1 2 true] [("lr", Num 1)]] (fun _ => None))]), (fun _ => Ten [2] [1%R; 1%R]). eexists _, _.
  split; [reflexivity|]. split; [discriminate|]. split; [unfold load, save; cbn; reflexivity|]. intros sd [H|[]]. discriminate H.
Qed.
Print Assumptions C109_volume_refuted.

(* C109. A file with an optimiser that the wrapper does not have (here that of the budget) raises KeyError, but only when the detector and the optimisers before it are loaded *)
Theorem C109_missing_refuted :
  exists (w w' : wrap unit) m m' w1 m1, load (fun _ m => (Ok tt, m)) (save w m) w' m' = (Err KeyError, (w1, m1)) /\ same_build (w_det w) (w_det w') /\
    (exists c, place (w_det w') [Nm "layers"; Ix 0; Nm "panels"; Ix 0; Nm "z"] c /\ m1 c <> m' c) /\ w_opts w1 <> w_opts w'.
Proof.
  pose (V := Detr [Some [DPanel 1 2 3 4 5 6]] (Some 7)). pose (o := fun r => Optim (St := unit) [Group [Param 1 2 true] [("lr", Num r)]] (fun _ => None)).
  exists (Wrapr V [("xy_pos_opt", o 1%R); ("budget_opt", Optim [Group [Param 7 1 true] []] (fun _ => None))]), (Wrapr V [("xy_pos_opt", o 2%R)]), (fun _ => Ten [1] [1%R]), (fun _ => Ten [1] [2%R]).
  eexists _, _. split; [unfold load, save, load_state_dict; cbn; reflexivity|]. split; [split; [reflexivity|tauto]|]. split.
  - exists 2. split; [cbn; tauto|]. cbn. intro H. injection H as H. lra.
  - cbn. intro H. injection H as H. lra.
Qed.
Print Assumptions C109_missing_refuted.
