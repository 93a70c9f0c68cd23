(* C10-C13, continued: whole crossings. *)
From Coq Require Import ZArith Psatz.
From Verif Require Import Base.Trig Model.Layer Spec.MuonSpec Spec.AngleSpec Spec.LayerSpec
  Proofs.MuonBatchP Proofs.MuonConserve Proofs.MuonAngles Proofs.MuonMoves Proofs.LayerP Proofs.PdgP.
Open Scope R_scope.
Open Scope list_scope.

(* ---------- soundness of single muons ---------- *)
Definition gmu (x y z p th ph : R) : muon := Mu (Fin x) (Fin y) (Fin z) (Fin p) (Fin th) (Fin ph).

Lemma sound_keep u : sound u -> keep_down u = true.
Proof.
  intros (x & y & z & p & th & ph & -> & _ & Ht). unfold keep_down; cbn.
  rewrite !andb_true_r. apply Rltb_true; lra.
Qed.
Lemma sound_go_d u s : sound u -> sound (go_d1 (Fin s) u).
Proof.
  intros (x & y & z & p & th & ph & -> & Hp & Ht). unfold go_d1. unfold xsub, xsin, xcos; cbn.
  do 6 eexists. split; [reflexivity|auto].
Qed.
Lemma sound_cos u : sound u -> exists th, mth u = Fin th /\ 0 < cos th.
Proof.
  intros (x & y & z & p & th & ph & -> & Hp & Ht). exists th. split; auto. apply costh_pos; auto.
Qed.
Lemma go_dz1_fin x y z p th ph d : cos th <> 0 ->
  go_dz1 (Fin d) (gmu x y z p th ph)
  = gmu (x + d / cos th * sin th * cos ph) (y + d / cos th * sin th * sin ph) (z - d) p th ph.
Proof.
  intro Hc. unfold go_dz1, gmu. cbn [mth mph mx my mz mp].
  change (xcos (Fin th)) with (Fin (cos th)). rewrite xdiv_fin by auto.
  unfold xcos, xsin, xsub; cbn [xfun xmul xadd xopp]. reflexivity.
Qed.
Lemma sound_go_dz u d : sound u -> sound (go_dz1 (Fin d) u).
Proof.
  intros (x & y & z & p & th & ph & -> & Hp & Ht). pose proof (costh_pos th Ht).
  fold (gmu x y z p th ph). rewrite go_dz1_fin by lra. do 6 eexists. split; [reflexivity|auto].
Qed.
Lemma go_dz1_z u d z : sound u -> mz u = Fin z -> mz (go_dz1 (Fin d) u) = Fin (z - d).
Proof. intros _ E. unfold go_dz1. cbn [mz]. rewrite E. reflexivity. Qed.
Lemma sound_z u : sound u -> exists z, mz u = Fin z.
Proof. intros (x & y & z & p & th & ph & -> & _). eexists; reflexivity. Qed.
Lemma sound_pulled L u : sound u -> sound (pulled L u).
Proof.
  intro Hs. unfold pulled. destruct (sound_z u Hs) as [z Ez]. rewrite Ez. cbn. destruct (Rltb _ _); auto.
  apply sound_go_dz; auto.
Qed.
Lemma mp_go_d d u : mp (go_d1 d u) = mp u. Proof. reflexivity. Qed.
Lemma mp_go_dz d u : mp (go_dz1 d u) = mp u. Proof. reflexivity. Qed.
Lemma mp_pulled L u : mp (pulled L u) = mp u.
Proof. unfold pulled. destruct (xlt _ _); reflexivity. Qed.
Lemma mp_step1 L rad inm d u : mp (step1 L rad inm d u) = mp u.
Proof.
  unfold step1. destruct inm; auto. destruct (over L u).
  - cbn. rewrite mp_pulled. reflexivity.
  - rewrite mp_pulled. reflexivity.
Qed.

(* whatever the projected angles, theta is NaN or a number in [0, pi/2] *)
Lemma theta_from_any tx ty : theta_from_theta_xy1 tx ty = NaN \/ exists t, theta_from_theta_xy1 tx ty = Fin t /\ 0 <= t.
Proof.
  unfold theta_from_theta_xy1. destruct (_ || _); auto.
  destruct (xadd _ _) as [r| | |] eqn:E; cbn [xsqrt xatan].
  - destruct (Rlt_dec r 0); auto. right. eexists; split; [reflexivity|]. cbn. apply atan_nonneg. apply sqrt_pos.
  - right. eexists; split; [reflexivity|]. pose proof PI_pos; lra.
  - auto.
  - auto.
Qed.
Lemma xatan_any a : xatan a = NaN \/ exists t, xatan a = Fin t.
Proof. destruct a; cbn; eauto. Qed.
Lemma phi_from_any tx ty : phi_from_theta_xy1 tx ty = NaN \/ exists t, phi_from_theta_xy1 tx ty = Fin t.
Proof.
  unfold phi_from_theta_xy1. destruct (_ || _); auto.
  destruct (xatan_any (xdiv (xtan ty) (xtan tx))) as [E|[t E]]; rewrite E;
    destruct (xlt tx (Fin 0)); destruct (xle (Fin 0) tx && xlt ty (Fin 0)); cbn; eauto.
Qed.

Lemma sound_turned a b u : sound u -> keep_down (turn_xy1 a b u) = true -> sound (turn_xy1 a b u).
Proof.
  intros (x & y & z & p & th & ph & -> & Hp & Ht). unfold turn_xy1. cbn [mth mph mx my mz mp].
  set (tx := plus_opt _ a). set (ty := plus_opt _ b). unfold keep_down; cbn [mth mph].
  destruct (theta_from_any tx ty) as [->|[t [-> H0]]]; [cbn; discriminate|].
  destruct (phi_from_any tx ty) as [->|[f ->]]; [cbn; rewrite andb_false_r; discriminate|].
  cbn. rewrite !andb_true_r, Rltb_true. intro Hk. do 6 eexists. split; [reflexivity|]. auto.
Qed.

Lemma sound_displaced L rad u d :
  sound u -> 0 < pl_step L -> 0 < x0_of L rad u ->
  (exists z, mz u = Fin z /\ pl_bot L < z) -> sound (displaced (scat_of L rad u d) u).
Proof.
  intros Hs Hst Hx0 [z0 [Ez0 Hz]]. pose proof Hs as (x & y & z & p & th & ph & Eu & Hp & Ht).
  assert (z0 = z) as -> by (rewrite Eu in Ez0; cbn in Ez0; congruence).
  assert (step_of L u = Fin (if Rltb ((z - pl_bot L) / cos th) (pl_step L) then (z - pl_bot L) / cos th else pl_step L)
          /\ 0 < (if Rltb ((z - pl_bot L) / cos th) (pl_step L) then (z - pl_bot L) / cos th else pl_step L)) as [Es Hpos].
  { pose proof (costh_pos th Ht) as Hc. unfold step_of. rewrite Eu; cbn [mz mth].
    change (xcos (Fin th)) with (Fin (cos th)). unfold xsub; cbn [xadd xopp]. rewrite xdiv_fin by lra. cbn [xlt].
    replace (z + - pl_bot L) with (z - pl_bot L) by ring.
    destruct (Rltb_spec ((z - pl_bot L) / cos th) (pl_step L)); split; auto. apply Rdiv_lt_0_compat; lra. }
  unfold displaced. set (s := scat_of L rad u d).
  destruct (pdg_displacement (x0_of L rad u) th ph p _ d Hx0 Hp Hpos (mu_theta_x u) (mu_theta_y u)) as (E1 & E2 & E3 & _).
  rewrite <- Es in E1, E2, E3.
  assert (s = pdg_scatter1 (Fin (x0_of L rad u)) (Fin th) (Fin ph) (mu_theta_x u) (mu_theta_y u) (Fin p) (step_of L u) d) as Hsc
    by (unfold s, scat_of; rewrite Eu; reflexivity).
  rewrite <- Hsc in E1, E2, E3.
  rewrite E1, E2, E3, Eu. unfold move1; cbn. do 6 eexists. split; [reflexivity|auto].
Qed.

Lemma step1_sound L rad inm d u :
  sound u -> 0 < pl_step L ->
  (inm = true -> over L u = true -> 0 < x0_of L rad u /\ exists z, mz u = Fin z /\ pl_bot L < z) ->
  keep_down (step1 L rad inm d u) = true -> sound (step1 L rad inm d u).
Proof.
  intros Hs Hst Hin Hk. unfold step1 in *. destruct inm; auto. destruct (over L u) eqn:Eo.
  - destruct (Hin eq_refl eq_refl) as [Hx Hz]. apply sound_turned; auto.
    apply sound_pulled. apply sound_go_d. apply sound_displaced; auto.
  - apply sound_pulled. apply sound_go_d; auto.
Qed.

(* ---------- lookups (C13) ---------- *)
Lemma floor_in_grid (size x : R) (n : nat) : 0 < size -> 0 <= x < INR n * size ->
  exists i : nat, (i < n)%nat /\ Rfloor (x / size) = Z.of_nat i /\ INR i * size <= x < (INR i + 1) * size.
Proof.
  intros Hs [H0 Hn]. destruct (Rfloor_bounds (x / size)) as [F1 F2]. set (k := Rfloor (x / size)) in *.
  assert (x = x / size * size) as Ex by (field; lra).
  assert (0 <= x / size) as Hq by (apply Rmult_le_pos; [lra|left; apply Rinv_0_lt_compat; auto]).
  assert (x / size < INR n) as Hq2 by (apply (Rmult_lt_reg_r size); lra).
  assert (-1 < k)%Z as K1 by (apply lt_IZR; lra).
  assert (k < Z.of_nat n)%Z as K2 by (apply lt_IZR; rewrite <- INR_IZR_INZ; lra).
  exists (Z.to_nat k). split; [lia|]. split; [lia|].
  rewrite INR_IZR_INZ, Z2Nat.id by lia. split.
  - rewrite Ex. apply Rmult_le_compat_r; lra.
  - rewrite Ex at 1. apply Rmult_lt_compat_r; lra.
Qed.

Lemma int_index_nat {A} (l : list A) (i : nat) a : nth_error l i = Some a -> int_index l (Z.of_nat i) = Ok a.
Proof.
  intro E. unfold int_index. replace (Z.of_nat i <? 0)%Z with false by (symmetry; apply Z.ltb_ge; lia).
  replace (Z.of_nat i <? 0)%Z with false by (symmetry; apply Z.ltb_ge; lia). rewrite Nat2Z.id, E. auto.
Qed.

Lemma voxel_lookup L rad nx ny x y z p th ph :
  0 < pl_size L -> pl_lx L = INR nx * pl_size L -> pl_ly L = INR ny * pl_size L ->
  len rad = nx -> (forall row, In row rad -> len row = ny) ->
  0 <= x < pl_lx L -> 0 <= y < pl_ly L ->
  exists i j row x0,
    (i < nx)%nat /\ (j < ny)%nat
    /\ INR i * pl_size L <= x < (INR i + 1) * pl_size L
    /\ INR j * pl_size L <= y < (INR j + 1) * pl_size L
    /\ abs2idx1 (pl_size L) (Fin x) = Some (Z.of_nat i) /\ abs2idx1 (pl_size L) (Fin y) = Some (Z.of_nat j)
    /\ nth_error rad i = Some row /\ nth_error row j = Some x0
    /\ lookup_x0 L rad (Mu (Fin x) (Fin y) z p th ph) = Ok x0.
Proof.
  intros Hs Ex Ey Lr Lrow Hx Hy. rewrite Ex in Hx. rewrite Ey in Hy.
  destruct (floor_in_grid _ _ _ Hs Hx) as (i & Hi & Fi & Bi).
  destruct (floor_in_grid _ _ _ Hs Hy) as (j & Hj & Fj & Bj).
  destruct (nth_error rad i) as [row|] eqn:Er; [|apply nth_error_None in Er; lia].
  assert (len row = ny) as Lr' by (apply Lrow; eapply nth_error_In; eauto).
  destruct (nth_error row j) as [x0|] eqn:Ej; [|apply nth_error_None in Ej; lia].
  exists i, j, row, x0. unfold lookup_x0. cbn [mx my abs2idx1]. rewrite Fi, Fj.
  rewrite (int_index_nat _ _ _ Er). cbn [bind]. rewrite (int_index_nat _ _ _ Ej).
  repeat split; auto; lra.
Qed.

Lemma over_iff L x y z p th ph :
  over L (Mu (Fin x) (Fin y) z p th ph) = true <-> 0 <= x < pl_lx L /\ 0 <= y < pl_ly L.
Proof.
  unfold over, in_xy; cbn. rewrite !andb_true_iff, !Rleb_true, !Rltb_true. tauto.
Qed.

(* X0 found is an entry of the map *)
Lemma int_index_in {A} (l : list A) i a : int_index l i = Ok a -> In a l.
Proof.
  unfold int_index. cbv zeta. destruct (Z.ltb (if (i <? 0)%Z then _ else _) 0); try discriminate;
  destruct (nth_error l _) eqn:E; try discriminate; intro Q; injection Q as <-; eapply nth_error_In; eauto.
Qed.
Lemma lookup_in L rad u x : lookup_x0 L rad u = Ok x -> exists row, In row rad /\ In x row.
Proof.
  unfold lookup_x0. destruct (abs2idx1 _ (mx u)); [|discriminate]. destruct (abs2idx1 _ (my u)); [|discriminate].
  intro E. apply bind_ok in E as [row [E1 E2]]. exists row. split; eapply int_index_in; eauto.
Qed.

(* ---------- one step on a sound batch ---------- *)
Lemma filter_down_in (ms : list muon) u : In u (filter keep_down ms) -> keep_down u = true /\ In u ms.
Proof. intro Hu. apply filter_In in Hu. tauto. Qed.

Lemma in_mapi {A B} (f : nat -> A -> B) l b : In b (mapi f l) -> exists i a, nth_error l i = Some a /\ b = f i a.
Proof.
  revert f; induction l as [|x l IH]; simpl; intros f Hb; [contradiction|]. destruct Hb as [<-|Hb].
  - exists 0%nat, x. auto.
  - destruct (IH _ Hb) as (i & a & E & ->). exists (S i), a. auto.
Qed.

Lemma survivors_remove {H} (b b' : batch H) :
  aligned (len (b_muons b)) (b_hits b) -> remove_upwards_muons b = Ok b' ->
  b_muons b' = filter keep_down (b_muons b) /\ survivors b b'.
Proof.
  intros A E. unfold remove_upwards_muons in E.
  destruct (filter_full (map keep_down (b_muons b)) b (map_length _ _) A) as (b1 & E1 & M & Hh & _).
  rewrite E in E1. injection E1 as <-. split; [rewrite M; apply select_filter|].
  exists (map keep_down (b_muons b)). split; [apply map_length|]. split; auto. rewrite M. rewrite select_map; auto.
Qed.

Lemma propagate_d_masked {H} st mask (b : batch H) : len mask = len (b_muons b) ->
  propagate_d (Sc (Fin st)) (Some mask) b = Ok (with_muons b (upd mask (fun _ => go_d1 (Fin st)) (b_muons b))).
Proof.
  intro Lm. unfold propagate_d.
  pose proof (go_d_spec (b_muons b) (Some mask) ltac:(cbn; rewrite Lm, Nat.eqb_refl; auto) (SAll (Fin st)) eq_refl) as T.
  cbn [mask_or_ones call_arg] in T |- *. rewrite T. reflexivity.
Qed.

Lemma step_sound {H} L rng mask (b b' : batch H) :
  0 < pl_step L -> positive_map L ->
  Forall sound (b_muons b) -> aligned (len (b_muons b)) (b_hits b) -> len mask = len (b_muons b) ->
  (forall i u, nth_error (b_muons b) i = Some u -> nth i mask false = true -> exists z, mz u = Fin z /\ pl_bot L < z) ->
  scatter_and_propagate L rng mask b = Ok b' ->
  Forall sound (b_muons b') /\ survivors b b'.
Proof.
  intros Hst Hpm Hs A Lm Hz E. rewrite Forall_forall in Hs.
  destruct (pl_rad L) as [rad|] eqn:Er.
  - pose proof (step_lookups H L rad Er rng mask b b' Lm E) as [Hp Hl].
    rewrite (step_eq H L rad Er rng mask b Hp Lm Hl) in E.
    set (f := fun i u => _) in E.
    assert (map mp (mapi f (b_muons b)) = map mp (b_muons b)) as Em.
    { rewrite map_mapi. rewrite <- mapi_const. apply mapi_ext. intros. apply mp_step1. }
    assert (len (mapi f (b_muons b)) = len (b_muons b)) as Lf by apply mapi_length.
    assert (aligned (len (b_muons (with_muons b (mapi f (b_muons b))))) (b_hits (with_muons b (mapi f (b_muons b))))) as A'
      by (cbn; rewrite Lf; auto).
    destruct (survivors_remove _ _ A' E) as [M S]. cbn [b_muons with_muons] in M. split.
    + rewrite M. apply Forall_forall. intros v Hv. apply filter_down_in in Hv as [Hk Hv].
      apply in_mapi in Hv as (i & u & Hu & ->). apply step1_sound; auto.
      * apply Hs. eapply nth_error_In; eauto.
      * intros Hin Ho. split; [|eapply Hz; eauto].
        assert (In u (select (smask L mask (b_muons b)) (b_muons b))) as Hsel.
        { assert (nth i (smask L mask (b_muons b)) false = true) as Hn by (unfold smask; rewrite (nth_and _ _ _ _ _ Hu Lm), Ho, Hin; auto).
          clear - Hu Hn. revert i Hu Hn. generalize (smask L mask (b_muons b)) as m. induction (b_muons b) as [|v l IH]; intros m [|i] Hu Hn; simpl in *; try discriminate.
          - injection Hu as ->. destruct m as [|q m]; simpl in *; [discriminate|]. rewrite Hn. left; auto.
          - destruct m as [|q m]; simpl in *; [discriminate|]. destruct q; [right|]; eapply IH; eauto. }
        specialize (Hl u Hsel). destruct (lookup_in _ _ _ _ Hl) as [row [R1 R2]]. eapply Hpm; eauto.
    + eapply survivors_trans; [exact A| |exact S]. apply survivors_same; auto.
  - unfold scatter_and_propagate in E. rewrite Er in E. rewrite propagate_d_masked in E by auto.
    cbn [bind] in E. injection E as <-. cbn [b_muons with_muons mask_or_ones at_i]. split.
    + apply Forall_forall. intros v Hv. unfold upd in Hv. apply in_mapi in Hv as (i & u & Hu & ->).
      assert (sound u) by (apply Hs; eapply nth_error_In; eauto).
      destruct (nth i mask false); auto. apply sound_go_d; auto.
    + apply survivors_same; auto. unfold upd. rewrite map_mapi. rewrite <- mapi_const. apply mapi_ext.
      intros i u. destruct (nth i mask false); auto.
Qed.

(* full vector propagation *)
Lemma propagate_dz_all {H} (g : muon -> xr) (b : batch H) :
  propagate_dz (Vec (map g (b_muons b))) None b = Ok (with_muons b (map (fun u => go_dz1 (g u) u) (b_muons b))).
Proof.
  unfold propagate_dz. cbn [mask_or_ones].
  pose proof (go_dz_spec (b_muons b) None eq_refl (SEach (map g (b_muons b))) ltac:(cbn; rewrite map_length, Nat.eqb_refl; auto)) as T.
  cbn [mask_or_ones call_arg] in T. rewrite T. cbn [bind]. f_equal. f_equal.
  unfold upd. rewrite <- (mapi_const (fun u => go_dz1 (g u) u)). apply nth_error_mapi_ext. intros i u Hu.
  assert (nth i (all_true (len (b_muons b))) false = true) as ->.
  { unfold all_true. assert (i < len (b_muons b))%nat as Hi by (apply nth_error_Some; congruence).
    clear Hu T. revert i Hi. induction (len (b_muons b)) as [|n IH]; intros [|i] Hi; simpl; try lia; auto. apply IH; lia. }
  cbn [at_i]. rewrite (nth_map_some _ _ _ _ _ Hu). reflexivity.
Qed.

Lemma in_layer_above L u : in_layer L u = true -> forall z, mz u = Fin z -> pl_bot L < z.
Proof.
  unfold in_layer. intros Hi z Ez. rewrite Ez in Hi. cbn in Hi. apply andb_true_iff in Hi as [Hi _]. apply Rltb_true in Hi. auto.
Qed.

Lemma loop_sound {H} L rng : 0 < pl_step L -> positive_map L ->
  forall fuel k mask (b b' : batch H),
  Forall sound (b_muons b) -> aligned (len (b_muons b)) (b_hits b) -> len mask = len (b_muons b) ->
  (forall i u, nth_error (b_muons b) i = Some u -> nth i mask false = true -> exists z, mz u = Fin z /\ pl_bot L < z) ->
  layer_loop L rng fuel k mask b = Some (Ok b') ->
  Forall sound (b_muons b') /\ survivors b b'.
Proof.
  intros Hst Hpm. induction fuel as [|fuel IH]; intros k mask b b' Hs A Lm Hz E; cbn [layer_loop] in E.
  - destruct (existsb _ mask); [discriminate|]. injection E as <-. split; auto.
    assert (b = with_muons b (b_muons b)) as Eb by (destruct b; auto). rewrite Eb at 2. apply survivors_same; auto.
  - destruct (existsb _ mask).
    + destruct (scatter_and_propagate L (rng k) mask b) as [b1|e] eqn:E1; [|discriminate].
      destruct (step_sound L (rng k) mask b b1 Hst Hpm Hs A Lm Hz E1) as [Hs1 S1].
      pose proof (survivors_aligned b b1 A S1) as A1.
      assert (Forall sound (b_muons b') /\ survivors b1 b') as [Hs' S'].
      * refine (IH _ _ _ _ Hs1 A1 (map_length _ _) _ E). intros i u Hu Hn. rewrite Forall_forall in Hs1. destruct (sound_z u (Hs1 u (nth_error_In _ _ Hu))) as [z Ez].
        exists z. split; auto. eapply in_layer_above; eauto.
        rewrite (nth_indep _ false (in_layer L u)), map_nth in Hn by (rewrite map_length; apply nth_error_Some; congruence).
        rewrite (nth_error_nth _ _ _ Hu) in Hn. auto.
      * split; auto. eapply survivors_trans; eauto.
    + injection E as <-. split; auto.
      assert (b = with_muons b (b_muons b)) as Eb by (destruct b; auto). rewrite Eb at 2. apply survivors_same; auto.
Qed.

Lemma layer_exit {H} L rng fuel (b b' : batch H) :
  0 < pl_size L -> 0 < pl_step L -> positive_map L ->
  Forall sound (b_muons b) -> aligned (len (b_muons b)) (b_hits b) ->
  layer_forward L rng fuel b = Some (Ok b') ->
  Forall (fun u => sound u /\ mz u = Fin (pl_bot L)) (b_muons b') /\ survivors b b'.
Proof.
  intros Hsz Hst Hpm Hs A E. unfold layer_forward in E. rewrite propagate_dz_all in E.
  set (ms0 := map (fun u => go_dz1 (xsub (mz u) (Fin (pl_z L))) u) (b_muons b)) in E.
  rewrite Forall_forall in Hs.
  assert (Forall (fun u => sound u /\ mz u = Fin (pl_z L)) ms0) as Hs0.
  { apply Forall_forall. intros v Hv. apply in_map_iff in Hv as (u & <- & Hu). destruct (sound_z u (Hs u Hu)) as [z Ez].
    rewrite Ez. unfold xsub; cbn [xadd xopp]. split; [apply sound_go_dz; auto|]. rewrite (go_dz1_z u _ z); auto. f_equal; ring. }
  assert (survivors b (with_muons b ms0)) as S0.
  { apply survivors_same; auto. unfold ms0. rewrite map_map. apply map_ext. auto. }
  pose proof (survivors_aligned _ _ A S0) as A0.
  destruct (layer_loop _ _ _ _ _ _) as [[b1|e]|] eqn:E1; [|discriminate|discriminate].
  apply loop_sound in E1 as [Hs1 S1]; auto.
  - rewrite propagate_dz_all in E. injection E as <-. rewrite Forall_forall in Hs1. split.
    + cbn [b_muons with_muons]. apply Forall_forall. intros v Hv. apply in_map_iff in Hv as (u & <- & Hu).
      destruct (sound_z u (Hs1 u Hu)) as [z Ez]. rewrite Ez. unfold xsub; cbn [xadd xopp].
      split; [apply sound_go_dz; auto|]. rewrite (go_dz1_z u _ z); auto. f_equal; ring.
    + eapply survivors_trans; [exact A|exact S0|]. eapply survivors_trans; [exact A0|exact S1|].
      apply survivors_same; [eapply survivors_aligned; eauto|]. rewrite map_map. apply map_ext; auto.
  - cbn. eapply Forall_impl; [|exact Hs0]. intros u [Hu _]; auto.
  - cbn. apply all_true_length.
  - cbn. intros i u Hu _. rewrite Forall_forall in Hs0. destruct (Hs0 u (nth_error_In _ _ Hu)) as [_ ->].
    exists (pl_z L). split; auto. unfold pl_bot; lra.
Qed.

(* ---------- conservation through a layer, whatever happens ---------- *)
Lemma step_conserved {H} L rng mask (b b' : batch H) : scatter_and_propagate L rng mask b = Ok b' -> conserved b b'.
Proof.
  unfold scatter_and_propagate. destruct (pl_rad L) as [rad|].
  - intro E. cbv zeta in E. inv_bind E.
    repeat match goal with
    | Hx : scatter_dxyz ?a ?b ?c ?d ?x = Ok ?y |- _ => apply (exec_conserved _ _ (OScatterXYZ a b c d)) in Hx
    | Hx : propagate_d ?a ?d ?x = Ok ?y |- _ => apply (exec_conserved _ _ (OPropD a d)) in Hx
    | Hx : propagate_dz ?a ?d ?x = Ok ?y |- _ => apply (exec_conserved _ _ (OPropDz a d)) in Hx
    | Hx : scatter_dtheta_xy ?a ?b ?d ?x = Ok ?y |- _ => apply (exec_conserved _ _ (OScatterThXY a b d)) in Hx
    end.
    repeat match goal with Hx : conserved ?u ?v |- conserved ?u _ => eapply conserved_trans; [exact Hx|]; clear Hx end.
    apply conserved_same; auto.
  - intro E. exact (exec_conserved _ _ (OPropD _ _) E).
Qed.

Lemma loop_conserved {H} L rng fuel : forall k mask (b b' : batch H), layer_loop L rng fuel k mask b = Some (Ok b') -> conserved b b'.
Proof.
  induction fuel as [|fuel IH]; intros k mask b b' E; cbn [layer_loop] in E; destruct (existsb _ mask); try discriminate;
    try (injection E as <-; apply conserved_same; auto).
  destruct (scatter_and_propagate _ _ _ _) as [b1|e] eqn:E1; [|discriminate].
  eapply conserved_trans; [eapply step_conserved; eauto|]. eapply IH; eauto.
Qed.
Lemma layer_conserved {H} L rng fuel (b b' : batch H) : layer_forward L rng fuel b = Some (Ok b') -> conserved b b'.
Proof.
  unfold layer_forward. destruct (propagate_dz _ None b) as [b1|] eqn:E1; [|discriminate].
  destruct (layer_loop _ _ _ _ _ _) as [[b2|]|] eqn:E2; try discriminate. intro E. injection E as E.
  apply (exec_conserved _ _ (OPropDz _ _)) in E1, E. apply loop_conserved in E2.
  eauto using conserved_trans.
Qed.

(* ---------- no exception ---------- *)
Lemma map_fits_positive L rad : pl_rad L = Some rad -> map_fits L rad -> positive_map L.
Proof. intros E (nx & ny & _ & _ & _ & _ & _ & P) rad' row x E'. rewrite E in E'. injection E' as <-. apply P. Qed.

Lemma over_lookup L rad u : map_fits L rad -> sound u -> over L u = true -> lookup_x0 L rad u = Ok (x0_of L rad u).
Proof.
  intros (nx & ny & Hs & Ex & Ey & L1 & L2 & _) (x & y & z & p & th & ph & -> & _) Ho.
  apply over_iff in Ho as [Hx Hy].
  destruct (voxel_lookup L rad nx ny x y (Fin z) (Fin p) (Fin th) (Fin ph) Hs Ex Ey L1 L2 Hx Hy)
    as (i & j & row & x0 & _ & _ & _ & _ & _ & _ & _ & _ & E). unfold x0_of. rewrite E. auto.
Qed.

Lemma material_positive L : material_ok L -> positive_map L.
Proof.
  unfold material_ok. intros M rad row x E. rewrite E in M. destruct M as [_ M]. eapply map_fits_positive; eauto.
Qed.

Lemma sel_over L mask ms u : In u (select (smask L mask ms) ms) -> over L u = true /\ In u ms.
Proof.
  unfold smask. revert mask; induction ms as [|v ms IH]; intros [|q mask]; simpl; try tauto.
  destruct (over L v) eqn:Eo; cbn [andb]; [destruct q|]; simpl.
  - intros [<-|Hu]; [auto|]. destruct (IH _ Hu); auto.
  - intro Hu. destruct (IH _ Hu); auto.
  - intro Hu. destruct (IH _ Hu); auto.
Qed.

Lemma step_no_error {H} L rng mask (b : batch H) :
  material_ok L -> Forall sound (b_muons b) -> aligned (len (b_muons b)) (b_hits b) -> len mask = len (b_muons b) ->
  exists b', scatter_and_propagate L rng mask b = Ok b'.
Proof.
  intros M Hs A Lm. unfold material_ok in M. destruct (pl_rad L) as [rad|] eqn:Er.
  - destruct M as [Mp Mf]. rewrite (step_eq H L rad Er rng mask b Mp Lm).
    + unfold remove_upwards_muons. cbn [b_muons with_muons].
      match goal with |- context [filter_muons ?k ?b0] => destruct (filter_full k b0) as (b1 & -> & _) end; eauto.
      * cbn [b_muons with_muons]. apply map_length.
      * cbn [b_muons b_hits with_muons]. rewrite mapi_length. auto.
    + intros u Hu. apply sel_over in Hu as [Ho Hu]. apply over_lookup; auto. rewrite Forall_forall in Hs; auto.
  - unfold scatter_and_propagate. rewrite Er, propagate_d_masked by auto. eauto.
Qed.

Lemma loop_no_error {H} L rng : 0 < pl_step L -> material_ok L ->
  forall fuel k mask (b : batch H) e,
  Forall sound (b_muons b) -> aligned (len (b_muons b)) (b_hits b) -> len mask = len (b_muons b) ->
  (forall i u, nth_error (b_muons b) i = Some u -> nth i mask false = true -> exists z, mz u = Fin z /\ pl_bot L < z) ->
  layer_loop L rng fuel k mask b <> Some (Err e).
Proof.
  intros Hst Hm. pose proof (material_positive L Hm) as Hpm.
  induction fuel as [|fuel IH]; intros k mask b e Hs A Lm Hz; cbn [layer_loop]; destruct (existsb _ mask); try discriminate.
  destruct (step_no_error L (rng k) mask b Hm Hs A Lm) as [b1 E1]. rewrite E1.
  destruct (step_sound L (rng k) mask b b1 Hst Hpm Hs A Lm Hz E1) as [Hs1 S1].
  apply IH; auto.
  - eapply survivors_aligned; eauto.
  - apply map_length.
  - intros i u Hu Hn. rewrite Forall_forall in Hs1. destruct (sound_z u (Hs1 u (nth_error_In _ _ Hu))) as [z Ez].
    exists z. split; auto. eapply in_layer_above; eauto.
    rewrite (nth_indep _ false (in_layer L u)), map_nth in Hn by (rewrite map_length; apply nth_error_Some; congruence).
    rewrite (nth_error_nth _ _ _ Hu) in Hn. auto.
Qed.

Lemma layer_no_error {H} L rng fuel (b : batch H) e :
  0 < pl_size L -> 0 < pl_step L -> material_ok L ->
  Forall sound (b_muons b) -> aligned (len (b_muons b)) (b_hits b) ->
  layer_forward L rng fuel b <> Some (Err e).
Proof.
  intros Hsz Hst Hm Hs A. unfold layer_forward. rewrite propagate_dz_all.
  match goal with |- context [layer_loop L rng fuel 0 ?m ?b0] => destruct (layer_loop L rng fuel 0 m b0) as [[b1|e']|] eqn:E1 end;
    try discriminate.
  - rewrite propagate_dz_all. discriminate.
  - exfalso. eapply loop_no_error; [exact Hst|exact Hm| | | | |exact E1].
    + cbn. apply Forall_forall. intros v Hv. apply in_map_iff in Hv as (u & <- & Hu). rewrite Forall_forall in Hs.
      destruct (sound_z u (Hs u Hu)) as [z ->]. apply sound_go_dz; auto.
    + cbn. rewrite map_length. auto.
    + cbn. apply all_true_length.
    + cbn. intros i v Hv _. apply nth_error_In in Hv. apply in_map_iff in Hv as (u & <- & Hu). rewrite Forall_forall in Hs.
      destruct (sound_z u (Hs u Hu)) as [z Ez]. rewrite Ez. unfold xsub; cbn [xadd xopp]. exists (pl_z L).
      rewrite (go_dz1_z u _ z); auto. split; [f_equal; ring|]. unfold pl_bot; lra.
Qed.

(* ---------- straight flight through an empty layer (C11) ---------- *)
Definition at_q (q : go_case * R) : muon := along (fst q) (snd q).
Lemma go_d_along c s d : go_d1 (Fin d) (along c s) = along c (s + d).
Proof. unfold go_d1, along, dir, xsub, xsin, xcos; cbn. f_equal; f_equal; ring. Qed.
Lemma go_dz_along c s d : cos (g_th c) <> 0 -> go_dz1 (Fin d) (along c s) = along c (s + d / cos (g_th c)).
Proof.
  intro Hc. unfold go_dz1, along, dir. cbn [mth mph mx my mz mp].
  change (xcos (Fin (g_th c))) with (Fin (cos (g_th c))). rewrite xdiv_fin by auto.
  unfold xcos, xsin, xsub; cbn [xfun xmul xadd xopp]. f_equal; f_equal; field; auto.
Qed.
Lemma along_z c s : mz (along c s) = Fin (g_z c - s * cos (g_th c)).
Proof. unfold along, dir; cbn. f_equal; ring. Qed.
Lemma along_0 c : along c 0 = g_mu c.
Proof. unfold along, g_mu, dir. f_equal; f_equal; ring. Qed.

Lemma downwards_cos c : downwards c -> 0 < cos (g_th c).
Proof. apply costh_pos. Qed.

Fixpoint advance (mask : list bool) (st : R) (qs : list (go_case * R)) : list (go_case * R) :=
  match qs with
  | [] => []
  | q :: qs => (if nth 0 mask false then (fst q, snd q + st) else q) :: advance (tl mask) st qs
  end.
Lemma advance_fst mask st qs : map fst (advance mask st qs) = map fst qs.
Proof. revert mask; induction qs as [|q qs IH]; intros mask; simpl; auto. rewrite IH. destruct (nth 0 mask false); auto. Qed.
Lemma advance_upd mask st qs :
  upd mask (fun _ => go_d1 (Fin st)) (map at_q qs) = map at_q (advance mask st qs).
Proof.
  unfold upd. revert mask; induction qs as [|q qs IH]; intros mask; simpl; auto.
  f_equal.
  - destruct (nth 0 mask false); auto. unfold at_q; cbn [fst snd]. apply go_d_along.
  - rewrite <- IH. apply mapi_ext. intros i u. destruct mask; simpl; auto. destruct i; auto.
Qed.
Lemma advance_nth mask st qs i q : nth_error (advance mask st qs) i = Some q ->
  exists q0, nth_error qs i = Some q0 /\ q = (if nth i mask false then (fst q0, snd q0 + st) else q0).
Proof.
  revert mask i; induction qs as [|q0 qs IH]; intros mask [|i]; simpl; try discriminate.
  - intro E; injection E as <-. exists q0. auto.
  - intro E. apply IH in E as (q1 & E1 & ->). exists q1. split; auto. destruct mask; simpl; auto. destruct i; auto.
Qed.

Lemma existsb_none (m : list bool) : existsb (fun x => x) m = true -> exists i, nth i m false = true /\ (i < len m)%nat.
Proof.
  induction m as [|q m IH]; simpl; [discriminate|]. intro E. apply orb_true_iff in E as [->|E].
  - exists 0%nat. split; auto; lia.
  - destruct (IH E) as (i & E1 & Hi). exists (S i). split; auto; lia.
Qed.

Lemma nth_map_at {A B} (f : A -> B) l i a d : nth_error l i = Some a -> nth i (map f l) d = f a.
Proof. revert i; induction l as [|x l IH]; intros [|i]; simpl; intro E; try discriminate; [congruence|auto]. Qed.

Lemma empty_loop {H} L rng : pl_rad L = None -> 0 < pl_step L ->
  forall fuel k mask qs r h hi,
  len mask = len qs -> (forall q, In q qs -> downwards (fst q)) ->
  (forall i q, nth_error qs i = Some q ->
     if nth i mask false
     then pl_bot L < g_z (fst q) - snd q * cos (g_th (fst q)) <= pl_bot L + INR fuel * pl_step L * cos (g_th (fst q))
     else in_layer L (at_q q) = false) ->
  exists qs', layer_loop (H := H) L rng fuel k mask (Batch (map at_q qs) r h hi) = Some (Ok (Batch (map at_q qs') r h hi))
    /\ map fst qs' = map fst qs.
Proof.
  intros Hr Hst. induction fuel as [|fuel IH]; intros k mask qs r h hi Lm Hd Hz; cbn [layer_loop].
  - destruct (existsb _ mask) eqn:Em; [|exists qs; auto].
    apply existsb_none in Em as (i & Hi & Li). rewrite Lm in Li.
    destruct (nth_error qs i) as [q|] eqn:Eq; [|apply nth_error_None in Eq; lia].
    specialize (Hz i q Eq). rewrite Hi in Hz. cbn [INR] in Hz. lra.
  - destruct (existsb _ mask) eqn:Em; [|exists qs; auto].
    unfold scatter_and_propagate. rewrite Hr. rewrite propagate_d_masked by (cbn; rewrite map_length; auto).
    cbn [b_muons with_muons]. rewrite advance_upd. unfold with_muons; cbn [b_removed b_hits b_hist].
    destruct (IH (S k) (map (in_layer L) (map at_q (advance mask (pl_step L) qs))) (advance mask (pl_step L) qs) r h hi) as (qs' & E & F).
    + rewrite !map_length; auto.
    + intros q Hq. apply In_nth_error in Hq as [i Hq]. apply advance_nth in Hq as (q0 & E0 & ->).
      assert (downwards (fst q0)) by (apply Hd; eapply nth_error_In; eauto). destruct (nth i mask false); auto.
    + intros i q Hq. rewrite map_map, (nth_map_at _ _ _ _ _ Hq).
      destruct (in_layer L (at_q q)) eqn:Hn; auto.
      assert (mz (at_q q) = Fin (g_z (fst q) - snd q * cos (g_th (fst q)))) as Ez by apply along_z.
      pose proof (in_layer_above L _ Hn _ Ez) as Habove.
      split; auto.
      apply advance_nth in Hq as (q0 & E0 & Eq). specialize (Hz i q0 E0). destruct (nth i mask false) eqn:Ei.
      * subst q. cbn [fst snd]. rewrite S_INR in Hz. nra.
      * subst q. congruence.
    + rewrite E. exists qs'. split; auto. rewrite F. apply advance_fst.
Qed.

Lemma enough_steps (L : passive) cs : 0 < pl_step L -> (forall c, In c cs -> downwards c) ->
  exists n : nat, forall c m, In c cs -> (n <= m)%nat -> pl_size L <= INR m * pl_step L * cos (g_th c).
Proof.
  intros Hst. induction cs as [|c cs IH]; intro Hd; [exists 0%nat; intros c m []|].
  destruct IH as [n Hn]; [intros; apply Hd; right; auto|].
  pose proof (downwards_cos c (Hd c (or_introl eq_refl))) as Hc.
  assert (0 < pl_step L * cos (g_th c)) as Hp by (apply Rmult_lt_0_compat; auto).
  destruct (Rle_lt_dec (pl_size L) 0) as [Hs|Hs].
  - exists n. intros c' m [<-|Hi] Hm; auto. pose proof (pos_INR m). nra.
  - destruct (archimed_cor1 (pl_step L * cos (g_th c) / pl_size L)) as (k & Hk & Hk0); [apply Rdiv_lt_0_compat; auto|].
    exists (Nat.max n k). intros c' m [<-|Hi] Hm; [|apply Hn; auto; lia].
    assert (INR k <= INR m) as Hkm by (apply le_INR; lia).
    assert (0 < INR k) as HkR by (apply lt_0_INR; auto).
    assert (pl_size L < INR k * (pl_step L * cos (g_th c))) as G.
    { apply (Rmult_lt_reg_l (/ INR k * / pl_size L)).
      - apply Rmult_lt_0_compat; apply Rinv_0_lt_compat; auto.
      - replace (/ INR k * / pl_size L * pl_size L) with (/ INR k) by (field; split; lra).
        replace (/ INR k * / pl_size L * (INR k * (pl_step L * cos (g_th c)))) with (pl_step L * cos (g_th c) / pl_size L) by (field; split; lra).
        auto. }
    nra.
Qed.

Lemma along_eq c s1 s2 : s1 = s2 -> along c s1 = along c s2. Proof. congruence. Qed.

Lemma empty_layer {H} L cs r h hi :
  pl_rad L = None -> 0 < pl_size L -> 0 < pl_step L -> (forall c, In c cs -> downwards c) ->
  exists fuel0, forall fuel rng, (fuel0 <= fuel)%nat ->
    layer_forward (H := H) L rng fuel (Batch (map g_mu cs) r h hi)
    = Some (Ok (Batch (map (fun c => along c ((g_z c - pl_bot L) / cos (g_th c))) cs) r h hi)).
Proof.
  intros Hr Hsz Hst Hd. destruct (enough_steps L cs Hst Hd) as [n Hn]. exists n. intros fuel rng Hf.
  unfold layer_forward. rewrite propagate_dz_all. cbn [b_muons with_muons b_removed b_hits b_hist].
  set (qs := map (fun c => (c, (g_z c - pl_z L) / cos (g_th c))) cs).
  assert (map (fun u => go_dz1 (xsub (mz u) (Fin (pl_z L))) u) (map g_mu cs) = map at_q qs) as E0.
  { unfold qs. rewrite !map_map. apply map_ext_in. intros c Hc. unfold at_q; cbn [fst snd].
    rewrite <- along_0, along_z. unfold xsub; cbn [xadd xopp]. rewrite go_dz_along.
    - apply along_eq. pose proof (downwards_cos c (Hd c Hc)). field; lra.
    - pose proof (downwards_cos c (Hd c Hc)); lra. }
  rewrite E0. unfold with_muons; cbn [b_removed b_hits b_hist]. rewrite map_length.
  assert (forall q, In q qs -> downwards (fst q)) as Hq.
  { intros q Hq. apply in_map_iff in Hq as (c & <- & Hc). cbn. auto. }
  destruct (empty_loop (H := H) L rng Hr Hst fuel 0 (all_true (len qs)) qs r h hi) as (qs' & E & F); auto.
  - apply all_true_length.
  - intros i q Eq. rewrite (nth_indep _ _ true) by (rewrite all_true_length; apply nth_error_Some; congruence).
    unfold all_true. rewrite nth_repeat. apply nth_error_In in Eq. apply in_map_iff in Eq as (c & <- & Hc). cbn [fst snd].
    pose proof (downwards_cos c (Hd c Hc)). pose proof (Hn c fuel Hc Hf).
    replace (g_z c - (g_z c - pl_z L) / cos (g_th c) * cos (g_th c)) with (pl_z L) by (field; lra).
    unfold pl_bot. lra.
  - rewrite E. rewrite propagate_dz_all. unfold with_muons; cbn [b_muons b_removed b_hits b_hist]. do 3 f_equal.
    assert (map fst qs' = cs) as F' by (rewrite F; unfold qs; rewrite map_map; cbn; apply map_id).
    rewrite map_map. rewrite <- F'. rewrite map_map. apply map_ext_in. intros q Hqq.
    assert (downwards (fst q)) as Hdq by (apply Hd; rewrite <- F'; apply in_map; auto).
    pose proof (downwards_cos _ Hdq). unfold at_q. rewrite along_z. unfold xsub; cbn [xadd xopp].
    rewrite go_dz_along by lra. apply along_eq. field; lra.
Qed.

(* ---------- muons outside the material (C12) ---------- *)
Lemma somes_filter {A} (p : A -> bool) l : somes (map (fun v => if p v then Some v else None) l) = filter p l.
Proof. induction l as [|v l IH]; simpl; auto. destruct (p v); simpl; congruence. Qed.

Lemma all_some {A} (l : list A) : map is_some (map Some l) = all_true (len l).
Proof. induction l as [|a l IH]; simpl; auto. rewrite IH. auto. Qed.
Lemma somes_all {A} (l : list A) : somes (map Some l) = l.
Proof. induction l as [|a l IH]; simpl; congruence. Qed.

Lemma nth_error_mapi {A B} (f : nat -> A -> B) l i : nth_error (mapi f l) i = option_map (f i) (nth_error l i).
Proof. revert f i; induction l as [|x l IH]; intros f [|i]; simpl; auto. rewrite IH. auto. Qed.

Lemma pulled_flight L c st : downwards c ->
  pulled L (go_d1 (Fin st) (g_mu c)) = along c (Rmin st ((g_z c - pl_bot L) / cos (g_th c))).
Proof.
  intro Hd. pose proof (downwards_cos c Hd) as Hc. rewrite <- along_0, go_d_along. unfold pulled. rewrite along_z.
  unfold xsub; cbn [xadd xopp xlt]. set (w := (g_z c - pl_bot L) / cos (g_th c)).
  assert (w * cos (g_th c) = g_z c - pl_bot L) as Ew by (unfold w; field; lra).
  destruct (Rltb_spec (g_z c - (0 + st) * cos (g_th c) + - pl_bot L) 0) as [Hl|Hl].
  - rewrite go_dz_along by lra. apply along_eq. rewrite Rmin_right.
    + unfold w. field; lra.
    + left. apply (Rmult_lt_reg_r (cos (g_th c))); auto. lra.
  - apply along_eq. rewrite Rmin_left; [ring|]. apply (Rmult_le_reg_r (cos (g_th c))); auto. lra.
Qed.

Lemma over_case L c : over L (g_mu c) = true <-> over_material L c.
Proof. unfold g_mu. rewrite over_iff. reflexivity. Qed.

Lemma keep_along c s : downwards c -> keep_down (along c s) = true.
Proof. intros [_ Hd]. unfold along, dir, keep_down; cbn. rewrite !andb_true_r. apply Rltb_true; auto. Qed.

Lemma outside_flies_free {H} L rng cs r h hi (b' : batch H) :
  (forall c, In c cs -> downwards c) -> aligned (len cs) h ->
  scatter_and_propagate L rng (map g_sel cs) (Batch (map g_mu cs) r h hi) = Ok b' ->
  exists out : list (option muon), len out = len cs
    /\ b_muons b' = somes out /\ b_hits b' = keep_hits (map is_some out) h
    /\ (pl_rad L = None -> Forall (fun o => is_some o = true) out)
    /\ forall i c, nth_error cs i = Some c -> ~ (g_sel c = true /\ over_material L c /\ pl_rad L <> None) ->
         nth_error out i = Some (Some (free_flight L c)).
Proof.
  intros Hd A E. set (b := Batch (map g_mu cs) r h hi) in *.
  assert (len (map g_sel cs) = len (b_muons b)) as Lm by (cbn; rewrite !map_length; auto).
  destruct (pl_rad L) as [rad|] eqn:Er.
  - pose proof (step_lookups H L rad Er rng _ b b' Lm E) as [Hp Hl].
    rewrite (step_eq H L rad Er rng _ b Hp Lm Hl) in E. set (f := fun i u => _) in E.
    assert (len (mapi f (b_muons b)) = len cs) as Lf by (rewrite mapi_length; cbn; apply map_length).
    unfold remove_upwards_muons in E. cbn [b_muons with_muons] in E.
    match type of E with filter_muons ?k ?b0 = _ => destruct (filter_full k b0) as (b1 & E1 & M & Hh & _) end.
    { cbn [b_muons with_muons]. apply map_length. }
    { cbn [b_muons b_hits with_muons]. rewrite Lf. exact A. }
    rewrite E in E1. injection E1 as <-. cbn [b_muons b_hits with_muons] in M, Hh.
    exists (map (fun v => if keep_down v then Some v else None) (mapi f (b_muons b))). split; [rewrite map_length; auto|].
    split; [rewrite somes_filter, <- select_filter; auto|]. split.
    { rewrite Hh. rewrite map_map. f_equal. apply map_ext. intro v. destruct (keep_down v); auto. }
    split; [discriminate|].
    intros i c Hc Hno. rewrite nth_error_map, nth_error_mapi. cbn [b_muons b]. rewrite nth_error_map, Hc. cbn [option_map].
    assert (downwards c) as Hdc by (apply Hd; eapply nth_error_In; eauto).
    unfold f, step1. rewrite (nth_map_at _ _ _ _ _ Hc). unfold free_flight. rewrite Er. destruct (g_sel c) eqn:Es.
    + destruct (over L (g_mu c)) eqn:Eo.
      * exfalso. apply Hno. split; auto. split; [apply over_case; auto|discriminate].
      * rewrite pulled_flight by auto. rewrite keep_along by auto. auto.
    + rewrite <- along_0. rewrite keep_along by auto. auto.
  - unfold scatter_and_propagate in E. rewrite Er, propagate_d_masked in E by auto. injection E as <-.
    cbn [b_muons b_hits with_muons].
    exists (map Some (upd (map g_sel cs) (fun _ => go_d1 (Fin (pl_step L))) (b_muons b))).
    assert (len (upd (map g_sel cs) (fun _ => go_d1 (Fin (pl_step L))) (b_muons b)) = len cs) as Lu by (rewrite upd_len; cbn; apply map_length).
    split; [rewrite map_length; auto|]. split; [symmetry; apply somes_all|].
    split.
    { cbn [b_hits b]. assert (map is_some (map Some (upd (map g_sel cs) (fun _ => go_d1 (Fin (pl_step L))) (b_muons b))) = all_true (len cs)) as ->.
      { rewrite <- Lu. apply all_some. }
      symmetry. apply keep_hits_all. auto. }
    split; [intros _; apply Forall_forall; intros o Ho; apply in_map_iff in Ho as (v & <- & _); auto|].
    intros i c Hc _. rewrite nth_error_map. unfold upd. rewrite nth_error_mapi. cbn [b_muons b]. rewrite nth_error_map, Hc. cbn [option_map].
    rewrite (nth_map_at _ _ _ _ _ Hc). unfold free_flight. rewrite Er. destruct (g_sel c); auto.
    rewrite <- along_0, go_d_along. do 2 f_equal. apply along_eq; ring.
Qed.

(* ---------- leaving by the top (C68) ---------- *)
Definition up_draw (th w : R) : draw := Draw 0 (- (sqrt 12 * (2 * cos th / (sin th * w)))) 0 0.

Lemma skips_layer {H} L rad c p x0 h hi :
  pl_rad L = Some rad -> pl_model L = "pdg"%string -> map_fits L rad ->
  0 < pl_step L <= pl_size L -> 0 < g_th c < PI / 2 -> g_p c = Fin p -> 0 < p -> g_z c = pl_z L -> over_material L c ->
  lookup_x0 L rad (g_mu c) = Ok x0 -> pdg_width (pl_step L / x0) p <> 0 ->
  aligned 1 h ->
  forall rng : nat -> nat -> draw, rng 0%nat 0%nat = up_draw (g_th c) (pdg_width (pl_step L / x0) p) ->
  exists b', layer_forward (H := H) L rng 1 (Batch [g_mu c] None h hi) = Some (Ok b').
Proof.
  intros Er Hmod Hf Hst Hth Ep Hp Ez Hov El Hw A rng Erng.
  set (w := pdg_width (pl_step L / x0) p) in *.
  assert (sound (g_mu c)) as Hsd by (unfold g_mu; rewrite Ep; do 6 eexists; split; [reflexivity|]; lra).
  assert (0 < pl_size L) as Hsz by lra.
  assert (material_ok L) as Hm by (unfold material_ok; rewrite Er; auto).
  assert (Forall sound (b_muons (Batch [g_mu c] None h hi))) as HF by (repeat constructor; auto).
  pose proof (fun e => layer_no_error L rng 1 (Batch [g_mu c] None h hi) e Hsz (proj1 Hst) Hm HF A) as NE.
  destruct (layer_forward L rng 1 (Batch [g_mu c] None h hi)) as [[b'|e]|] eqn:E; [eauto|exfalso; eapply NE; eauto|].
  exfalso. unfold layer_forward in E. rewrite propagate_dz_all in E. cbn [b_muons map] in E.
  assert (0 < cos (g_th c)) as Hc by (apply costh_pos; lra).
  assert (0 < sin (g_th c)) as Hsn by (apply sin_gt_0; pose proof PI_pos; lra).
  replace (go_dz1 (xsub (mz (g_mu c)) (Fin (pl_z L))) (g_mu c)) with (g_mu c) in E.
  2:{ unfold xsub; cbn [g_mu mz xadd xopp]. fold (g_mu c). rewrite <- along_0, go_dz_along by lra. apply along_eq. rewrite Ez. field; lra. }
  unfold with_muons in E; cbn [b_muons b_removed b_hits b_hist List.length] in E.
  change (all_true 1) with [true] in E. cbn [layer_loop existsb orb] in E.
  set (b := Batch [g_mu c] None h hi) in *.
  assert (0 < x0) as Hx0 by (destruct (lookup_in _ _ _ _ El) as [row [R1 R2]]; destruct Hf as (nx & ny & _ & _ & _ & _ & _ & P); eauto).
  assert (over L (g_mu c) = true) as Ho by (apply over_case; auto).
  rewrite (step_eq H L rad Er (rng 0%nat) [true] b Hmod eq_refl) in E.
  2:{ intros u Hu. cbn [b_muons b smask map map2 select] in Hu. rewrite Ho in Hu. cbn in Hu. destruct Hu as [<-|[]].
      unfold x0_of. rewrite El. auto. }
  cbn [b_muons b mapi nth] in E.
  change (rank (smask L [true] [g_mu c]) 0) with 0%nat in E. rewrite Erng in E.
  set (d := up_draw (g_th c) w) in E. set (v := step1 L rad true d (g_mu c)) in E.
  assert (in_layer L v = false) as Hv.
  { unfold v, step1. rewrite Ho. unfold turned_by, turn_xy1.
    set (u2 := go_d1 (Fin (pl_step L)) (displaced (scat_of L rad (g_mu c) d) (g_mu c))).
    assert (mz u2 = Fin (pl_z L + pl_step L * cos (g_th c))) as Ez2.
    { unfold u2, go_d1. cbn [mz]. unfold displaced, move1. cbn [mz mth].
      assert (step_of L (g_mu c) = Fin (pl_step L)) as Es.
      { unfold step_of, g_mu. cbn [mz mth]. change (xcos (Fin (g_th c))) with (Fin (cos (g_th c))).
        unfold xsub; cbn [xadd xopp]. rewrite xdiv_fin by lra. cbn [xlt]. rewrite Ez. unfold pl_bot.
        destruct (Rltb_spec ((pl_z L + - (pl_z L - pl_size L)) / cos (g_th c)) (pl_step L)) as [Hlt|]; auto.
        exfalso. replace (pl_z L + - (pl_z L - pl_size L)) with (pl_size L) in Hlt by ring.
        assert (pl_size L = pl_size L / cos (g_th c) * cos (g_th c)) as Q by (field; lra).
        pose proof (COS_bound (g_th c)). assert (0 < pl_size L / cos (g_th c)) by (apply Rdiv_lt_0_compat; lra). nra. }
      assert (s_dz_vol (scat_of L rad (g_mu c) d) = Fin (2 * pl_step L * cos (g_th c))) as Ed.
      { unfold scat_of. rewrite Es. unfold x0_of. rewrite El. unfold g_mu at 1 2 5; cbn [mth mph mp]. rewrite Ep.
        destruct (pdg_displacement x0 (g_th c) (g_ph c) p (pl_step L) d Hx0 Hp (proj1 Hst) (mu_theta_x (g_mu c)) (mu_theta_y (g_mu c)))
          as (_ & _ & D & _). rewrite D. f_equal. unfold rot_z. destruct (Reqb_spec (g_th c) 0); [lra|].
        unfold off_y. fold w. cbn [d up_draw z1y z2y]. unfold d, up_draw; cbn [z1y z2y].
        assert (sqrt 12 <> 0) by (apply Rgt_not_eq; apply sqrt_lt_R0; lra). field. repeat split; auto; lra. }
      rewrite Ed. cbn [g_mu mz mth]. unfold xsub, xcos; cbn [plus_opt xadd xopp xfun xmul]. rewrite Ez. f_equal. ring. }
    assert (pulled L u2 = u2) as Ep2.
    { unfold pulled. rewrite Ez2. unfold xsub; cbn [xadd xopp xlt]. unfold pl_bot.
      destruct (Rltb_spec (pl_z L + pl_step L * cos (g_th c) + - (pl_z L - pl_size L)) 0) as [Hlt|]; auto.
      exfalso. assert (0 < pl_step L * cos (g_th c)) by (apply Rmult_lt_0_compat; lra). lra. }
    rewrite Ep2. unfold in_layer. cbn [mz]. rewrite Ez2. cbn [xlt xle].
    apply andb_false_iff. right. apply Rleb_false. assert (0 < pl_step L * cos (g_th c)) by (apply Rmult_lt_0_compat; lra). lra. }
  destruct (remove_upwards_muons (with_muons b [v])) as [b1|e1] eqn:E1; [|discriminate].
  assert (existsb (fun x => x) (map (in_layer L) (b_muons b1)) = false) as Hno.
  { apply survivors_remove in E1 as [M _]; [|exact A]. rewrite M. cbn [b_muons with_muons filter].
    destruct (keep_down v); cbn [map existsb]; [rewrite Hv|]; auto. }
  cbn [layer_loop] in E. rewrite Hno in E. discriminate.
Qed.
