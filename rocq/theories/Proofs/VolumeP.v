(* C20-C23: budgets, conforming detectors, voxel grids. *)
From Coq Require Import ZArith Psatz Permutation Lia.
From Verif Require Import Model.Volume Spec.VolumeSpec Proofs.MuonConserve Proofs.MuonHeapP Proofs.PanelP.
Open Scope R_scope.
Open Scope string_scope.
Open Scope list_scope.

(* ---------- C20 ---------- *)
Lemma set_nth_len {A} (l : list A) i f : len (set_nth l i f) = len l.
Proof. revert i; induction l as [|a l IH]; intros [|i]; simpl; auto. Qed.
Lemma set_nth_same {A} (l : list A) i f a : nth_error l i = Some a -> nth_error (set_nth l i f) i = Some (f a).
Proof. revert i; induction l as [|b l IH]; intros [|i] H; simpl in *; try discriminate; auto. injection H as ->; auto. Qed.
Lemma set_nth_other {A} (l : list A) i j f : i <> j -> nth_error (set_nth l i f) j = nth_error l j.
Proof. revert i j; induction l as [|b l IH]; intros [|i] [|j] H; simpl in *; auto; try congruence. Qed.

Lemma give_budgets_effect order : forall bs ps, NoDup order -> (len order <= len bs)%nat ->
  (forall j, In j order -> (j < len ps)%nat) ->
  exists ps', give_budgets order bs ps = Ok ps' /\ len ps' = len ps
  /\ (forall j, ~ In j order -> nth_error ps' j = nth_error ps j)
  /\ forall i j c P, nth_error order i = Some j -> nth_error bs i = Some c -> nth_error ps j = Some P ->
       nth_error ps' j = Some (panel_assign_budget c P).
Proof.
  induction order as [|j order IH]; intros bs ps Hd Hl Hb; simpl.
  - exists ps. split; [auto|]. split; [auto|]. split; [auto|]. intros [|i] ? ? ? H; discriminate.
  - destruct bs as [|c bs]; [simpl in Hl; lia|]. apply NoDup_cons_iff in Hd as [Hj Hd].
    destruct (IH bs (set_nth ps j (panel_assign_budget c)) Hd) as (ps' & E & L & Hother & Hset).
    + simpl in Hl; lia.
    + intros j' H. rewrite set_nth_len. apply Hb. right; auto.
    + exists ps'. split; [auto|]. split; [rewrite L; apply set_nth_len|]. split.
      * intros j' H. rewrite Hother by (intro; apply H; right; auto). apply set_nth_other. intro; apply H; left; auto.
      * intros [|i] j' c' P Ho Hc HP; simpl in *.
        -- injection Ho as ->. injection Hc as ->. rewrite Hother by auto. apply set_nth_same; auto.
        -- eapply Hset; eauto. rewrite set_nth_other; auto. intros ->. apply Hj. eapply nth_error_In; eauto.
Qed.

Lemma Rsum_perm l l' : Permutation l l' -> Rsum l = Rsum l'.
Proof. induction 1; cbn; lra. Qed.

Lemma assigned_cost c P : affordable P -> 0 <= c -> panel_cost (panel_assign_budget c P) = c.
Proof.
  intros (Hm & Hx & Hy) Hc. unfold panel_cost, panel_assign_budget, span_x, span_y, with_scale; cbn.
  assert (0 < pn_m2 P * (pn_sx P * pn_sy P)) as Hp by (apply Rmult_lt_0_compat; [|apply Rmult_lt_0_compat]; auto).
  set (k := sqrt _). assert (k * k = c / (pn_m2 P * (pn_sx P * pn_sy P))) as Hk.
  { apply sqrt_sqrt. unfold Rdiv. apply Rmult_le_pos; auto. left. apply Rinv_0_lt_compat; auto. }
  replace (pn_m2 P * (pn_sx P * k * (pn_sy P * k))) with (pn_m2 P * (pn_sx P * pn_sy P) * (k * k)) by ring. rewrite Hk. field.
  repeat split; lra.
Qed.

Lemma zorder_perm argsort D : is_argsort argsort -> Permutation (panel_zorder argsort D) (seq 0 (len (dl_panels D))).
Proof.
  intro Ha. unfold panel_zorder. eapply perm_trans; [apply Permutation_sym, Permutation_rev|].
  destruct (Ha (map pn_z (dl_panels D))) as [Hp _]. rewrite map_length in Hp. exact Hp.
Qed.

Lemma map_as_seq {A B} (f : A -> B) (l : list A) (d : A) : map f l = map (fun i => f (nth i l d)) (seq 0 (len l)).
Proof. rewrite <- (map_nth_seq l d) at 1. rewrite map_map. auto. Qed.

Lemma det_assign_effect argsort D bs : is_argsort argsort -> len bs = n_costs D ->
  Forall affordable (dl_panels D) -> Forall (fun c => 0 <= c) bs ->
  exists D', det_assign_budget argsort bs D = Ok D'
    /\ Permutation (map panel_cost (dl_panels D')) bs
    /\ Forall (fun Q => 0 <= pn_scale Q) (dl_panels D')
    /\ Forall2 (fun c z => exists Q, In Q (dl_panels D') /\ pn_z Q = z /\ panel_cost Q = c) bs (sort_down (map pn_z (dl_panels D))).
Proof.
  intros Ha Hl Haf Hpos. pose proof (zorder_perm argsort D Ha) as Hp. unfold n_costs in Hl.
  assert (len (panel_zorder argsort D) = len (dl_panels D)) as Hlo by (rewrite (Permutation_length Hp); apply seq_length).
  destruct (give_budgets_effect (panel_zorder argsort D) bs (dl_panels D)) as (ps' & E & L & _ & Hset).
  - apply Permutation_NoDup with (seq 0 (len (dl_panels D))); [apply Permutation_sym; auto|apply seq_NoDup].
  - lia.
  - intros j H. apply (Permutation_in _ Hp), in_seq in H. lia.
  - unfold det_assign_budget. rewrite E. cbn [bind]. eexists. split; [reflexivity|]. cbn [with_panels dl_panels].
    pose (d0 := Panel Gauss 0 0 0 0 0 0 0 0 0 true).
    assert (forall i j, nth_error (panel_zorder argsort D) i = Some j -> exists c P, nth_error bs i = Some c /\ nth_error (dl_panels D) j = Some P
        /\ nth_error ps' j = Some (panel_assign_budget c P) /\ panel_cost (panel_assign_budget c P) = c) as Hall.
    { intros i j Hij. assert (i < len bs)%nat as Hi by (rewrite Hl, <- Hlo; apply nth_error_Some; congruence).
      destruct (nth_error bs i) as [c|] eqn:Hc; [|apply nth_error_None in Hc; lia].
      assert (j < len (dl_panels D))%nat as Hj by (apply nth_error_In in Hij; apply (Permutation_in _ Hp), in_seq in Hij; lia).
      destruct (nth_error (dl_panels D) j) as [P|] eqn:HP; [|apply nth_error_None in HP; lia].
      exists c, P. split; [auto|]. split; [auto|]. split; [eapply Hset; eauto|].
      apply assigned_cost; [rewrite Forall_forall in Haf; apply Haf; eapply nth_error_In; eauto|].
      rewrite Forall_forall in Hpos. apply Hpos. eapply nth_error_In; eauto. }
    split; [|split].
    2:{ apply Forall_forall. intros Q HQ. apply In_nth_error in HQ as [j Hj].
      assert (In j (panel_zorder argsort D)) as Hin.
      { apply (Permutation_in _ (Permutation_sym Hp)), in_seq. rewrite <- L. split; [lia|]. apply nth_error_Some. congruence. }
      apply In_nth_error in Hin as [i Hij]. destruct (Hall i j Hij) as (c & P & _ & _ & Hq & _).
      assert (Q = panel_assign_budget c P) as -> by congruence. cbn. apply sqrt_pos. }
    + rewrite (map_as_seq panel_cost ps' d0), L.
      eapply perm_trans; [apply Permutation_map, Permutation_sym, Hp|].
      assert (map (fun i => panel_cost (nth i ps' d0)) (panel_zorder argsort D) = bs) as ->; [|apply Permutation_refl].
      apply nth_error_ext'. intros i. rewrite nth_error_map.
      destruct (nth_error (panel_zorder argsort D) i) as [j|] eqn:Hij; cbn.
      * destruct (Hall i j Hij) as (c & P & Hc & HP & Hq & Hcost). rewrite Hc. f_equal. rewrite (nth_error_nth _ _ d0 Hq). auto.
      * symmetry. apply nth_error_None. apply nth_error_None in Hij. lia.
    + rewrite <- (zorder_heights argsort D Ha). clear Hp Hset E.
      assert (len bs = len (panel_zorder argsort D)) as Hlb by lia. revert Hlb Hall. clear. revert bs.
      generalize (panel_zorder argsort D) as od. induction od as [|j od IH]; intros bs Hlb Hall; destruct bs as [|c bs]; simpl in Hlb; try lia; simpl; constructor.
      * destruct (Hall 0%nat j eq_refl) as (c' & P & Hc & HP & Hq & Hcost). injection Hc as <-.
        exists (panel_assign_budget c P). split; [eapply nth_error_In; eauto|]. split; auto.
        symmetry. apply nth_error_nth. rewrite nth_error_map, HP. reflexivity.
      * apply IH; [lia|]. intros i j' Hij. apply (Hall (S i) j' Hij).
Qed.

Lemma give_layers_effect argsort : is_argsort argsort -> forall ls shares,
  len shares = len (all_panels ls) -> Forall affordable (all_panels ls) -> Forall (fun c => 0 <= c) shares ->
  exists ls', give_layers argsort shares ls = Ok ls'
    /\ Permutation (map panel_cost (all_panels ls')) shares
    /\ Forall (fun Q => 0 <= pn_scale Q) (all_panels ls')
    /\ Forall2 (fun c z => exists Q, In Q (all_panels ls') /\ pn_z Q = z /\ panel_cost Q = c) shares
         (flat_map (fun D => sort_down (map pn_z (dl_panels D))) (detectors ls)).
Proof.
  intro Ha. induction ls as [|l ls IH]; intros shares Hl Haf Hpos; cbn [give_layers].
  - exists []. split; [auto|]. unfold all_panels in *; simpl in *. destruct shares; [repeat split; constructor|discriminate].
  - destruct l as [L|D].
    + destruct (IH shares Hl Haf Hpos) as (ls' & E & Hp & Hsc & Hf). rewrite E. cbn [bind]. eexists. split; [reflexivity|]. split; [|split]; auto.
    + unfold all_panels in *. simpl in Hl, Haf. rewrite app_length in Hl. apply Forall_app in Haf as [HaD Haf].
      assert (len (firstn (n_costs D) shares) = n_costs D) as Hn by (apply firstn_length_le; unfold n_costs; lia).
      destruct (det_assign_effect argsort D (firstn (n_costs D) shares) Ha Hn HaD) as (D' & ED & HpD & HscD & HfD).
      { rewrite Forall_forall in *. intros c Hc. apply Hpos. rewrite <- (firstn_skipn (n_costs D)). apply in_or_app; auto. }
      destruct (IH (skipn (n_costs D) shares)) as (ls' & E & Hp & Hsc & Hf); auto.
      { rewrite skipn_length. unfold n_costs. lia. }
      { rewrite Forall_forall in *. intros c Hc. apply Hpos. rewrite <- (firstn_skipn (n_costs D)). apply in_or_app; auto. }
      cbv zeta. rewrite ED. cbn [bind]. rewrite E. cbn [bind]. eexists. split; [reflexivity|]. simpl. split; [|split; [apply Forall_app; auto|]].
      * rewrite map_app. rewrite <- (firstn_skipn (n_costs D) shares) at 1. apply Permutation_app; auto.
      * rewrite <- (firstn_skipn (n_costs D) shares) at 1. apply Forall2_app.
        -- eapply Forall2_imp; [|exact HfD]. cbv beta. intros c z (Q & HQ & ?). exists Q. split; auto. apply in_or_app; auto.
        -- eapply Forall2_imp; [|exact Hf]. cbv beta. intros c z (Q & HQ & ?). exists Q. split; auto. apply in_or_app; auto.
Qed.

Lemma exp_sum_pos w : w <> [] -> 0 < Rsum (map exp w).
Proof.
  intro H. apply Rsum_pos. destruct w; simpl; congruence. intros x Hx. apply in_map_iff in Hx as (y & <- & _). apply exp_pos.
Qed.
Lemma softmax_sum w : w <> [] -> Rsum (softmax w) = 1.
Proof.
  intro H. pose proof (exp_sum_pos w H). unfold softmax.
  rewrite (Rsum_map_ext _ (fun x => / Rsum (map exp w) * exp x)) by (intros; unfold Rdiv; ring). rewrite Rsum_map_mult. apply Rinv_l. lra.
Qed.
Lemma det_cost_sum ls : Rsum (map det_cost (detectors ls)) = Rsum (map panel_cost (all_panels ls)).
Proof.
  unfold all_panels. induction (detectors ls) as [|D l IH]; auto. cbn [map flat_map]. rewrite map_app, Rsum_app, <- IH. reflexivity.
Qed.

Lemma Forall2_unmap {A A' B} (R : A' -> B -> Prop) (f : A -> A') l : forall l', Forall2 R (map f l) l' -> Forall2 (fun a b => R (f a) b) l l'.
Proof. induction l as [|a l IH]; intros l' H; simpl in H; inversion H; subst; constructor; auto. Qed.

Lemma budget_spent argsort V c : is_argsort argsort -> v_budget V = Some c -> 0 < c -> v_weights V <> [] ->
  len (v_weights V) = len (all_panels (v_layers V)) -> Forall affordable (all_panels (v_layers V)) ->
  exists V', assign_budget argsort V = Ok V'
    /\ Rsum (map panel_cost (all_panels (v_layers V'))) = c
    /\ Forall (fun P => 0 < panel_cost P) (all_panels (v_layers V'))
    /\ volume_cost V' = c /\ Rsum (map det_cost (detectors (v_layers V'))) = c
    /\ Forall2 (fun w z => exists P, In P (all_panels (v_layers V')) /\ pn_z P = z
                           /\ panel_cost P = c * (exp w / Rsum (map exp (v_weights V))))
         (v_weights V) (flat_map (fun D => sort_down (map pn_z (dl_panels D))) (detectors (v_layers V)))
    /\ Forall2 same_layer (v_layers V) (v_layers V')
    /\ Forall (fun P => 0 <= pn_scale P) (all_panels (v_layers V'))
    /\ v_budget V' = Some c /\ v_weights V' = v_weights V /\ v_target V' = v_target V.
Proof.
  intros Ha Hb Hc Hw Hl Haf. pose proof (exp_sum_pos _ Hw) as Hs.
  set (shares := map (fun s => c * s) (softmax (v_weights V))).
  assert (forall s, In s shares -> 0 < s) as Hsp.
  { intros s H. unfold shares, softmax in H. rewrite map_map in H. apply in_map_iff in H as (w & <- & _).
    apply Rmult_lt_0_compat; auto. apply Rdiv_lt_0_compat; auto. apply exp_pos. }
  destruct (give_layers_effect argsort Ha (v_layers V) shares) as (ls' & E & Hp & Hsc & Hf); auto.
  { unfold shares, softmax. rewrite !map_length. auto. }
  { apply Forall_forall. intros s H. left. auto. }
  assert (assign_budget argsort V = Ok (Volume ls' (v_budget V) (v_weights V) (v_target V))) as EV.
  { unfold assign_budget. rewrite Hb. fold shares. rewrite E. reflexivity. }
  eexists. split; [exact EV|]. pose proof (assign_same argsort _ _ EV) as Hsame. cbn [v_layers v_budget v_weights v_target] in *.
  assert (Rsum (map panel_cost (all_panels ls')) = c) as Hsum.
  { rewrite (Rsum_perm _ _ Hp). unfold shares. rewrite Rsum_map_mult. rewrite map_id, softmax_sum by auto. lra. }
  split; [auto|]. split; [|split; [|split; [|split]]].
  - apply Forall_forall. intros P HP. apply Hsp. eapply Permutation_in; [exact Hp|]. apply in_map; auto.
  - unfold volume_cost. cbn. rewrite Hb. auto.
  - rewrite det_cost_sum. auto.
  - unfold shares, softmax in Hf. rewrite map_map in Hf. apply Forall2_unmap in Hf. exact Hf.
  - auto.
Qed.

Lemma new_volume_weights argsort ls c V : new_volume argsort ls (Some c) = Ok V ->
  v_weights V = repeat 0 (len (all_panels ls)) /\ v_budget V = Some c.
Proof.
  unfold new_volume. intro E. inv_bind E. unfold configure_budget in E. cbn [v_layers v_budget v_weights v_target] in E.
  unfold assign_budget in E. cbn [v_layers v_budget v_weights v_target] in E. inv_bind E. injection E as <-. cbn. split; auto. f_equal.
  clear. unfold all_panels. induction (detectors ls); simpl; auto. rewrite app_length, IHl. auto.
Qed.

(* ---------- C21 ---------- *)
Lemma Rclamp_nearest lo hi x : lo <= hi -> nearest lo hi x (Rclamp lo hi x).
Proof.
  intro H. split; [apply Rclamp_bounds; auto|]. intros w Hw. unfold Rclamp, Rmax, Rmin.
  unfold Rabs. repeat destruct (Rle_dec _ _); repeat destruct (Rcase_abs _); lra.
Qed.
Lemma nearest_unchanged lo hi x x' : nearest lo hi x x' -> lo <= x <= hi -> x' = x.
Proof.
  intros [_ H] Hx. specialize (H x Hx). replace (x - x) with 0 in H by ring. rewrite Rabs_R0 in H.
  pose proof (Rabs_pos (x' - x)). assert (Rabs (x' - x) = 0) as E by lra. apply Rabs_0_inv in E || (destruct (Req_dec (x' - x) 0); [lra|apply Rabs_no_R0 in H1; lra]).
Qed.

Lemma conform_spec eps D : 0 <= dl_lx D -> 0 <= dl_ly D -> (forall i, 0 <= eps i /\ 2 * eps i <= dl_size D) ->
  (dl_pos (conform_detector eps D) = dl_pos D /\ dl_lx (conform_detector eps D) = dl_lx D /\ dl_ly (conform_detector eps D) = dl_ly D
   /\ dl_z (conform_detector eps D) = dl_z D /\ dl_size (conform_detector eps D) = dl_size D)
  /\ len (dl_panels (conform_detector eps D)) = len (dl_panels D)
  /\ forall i P, nth_error (dl_panels D) i = Some P ->
       exists P', nth_error (dl_panels (conform_detector eps D)) i = Some P' /\ conformed D (eps i) P P'.
Proof.
  intros Hx Hy He. split; [cbn; auto|]. unfold conform_detector; cbn [with_panels dl_panels].
  split; [rewrite map_length, combine_length, seq_length; lia|]. intros i P HP. rewrite nth_error_map.
  assert (nth_error (combine (seq 0 (len (dl_panels D))) (dl_panels D)) i = Some (i, P)) as ->.
  { revert HP. generalize (dl_panels D) as l. assert (forall l k, nth_error l i = Some P -> nth_error (combine (seq k (len l)) l) i = Some ((k + i)%nat, P)) as G; [|intro l; apply (G l 0%nat)].
    induction i as [|i IH]; intros [|Q l] k H; simpl in *; try discriminate; [injection H as ->; rewrite Nat.add_0_r; auto|].
    rewrite (IH l (S k) H). do 2 f_equal. lia. }
  cbn [option_map]. eexists. split; [reflexivity|]. cbn [fst snd]. destruct (He i).
  split; [apply Rclamp_nearest; lra|]. split; [apply Rclamp_nearest; lra|]. split; [apply Rclamp_nearest; lra|].
  split; [apply Rclamp_nearest; lra|]. split; [apply Rclamp_nearest; lra|]. cbn. auto 10.
Qed.

(* ---------- C22, C23 ---------- *)
Lemma round_half_even_int z : round_half_even (IZR z) = z.
Proof.
  unfold round_half_even. rewrite (Rfloor_unique (IZR z) z) by lra. rewrite Rminus_diag_eq by auto.
  destruct (Rltb_spec 0 (1 / 2)); [auto|lra].
Qed.
Lemma zrange_len a b : len (zrange a b) = Z.to_nat (b - a).
Proof. unfold zrange. rewrite map_length, seq_length. auto. Qed.
Lemma nth_error_seq n : forall a i, (i < n)%nat -> nth_error (seq a n) i = Some (a + i)%nat.
Proof.
  induction n; intros a i H; [lia|]. destruct i; simpl; [f_equal; lia|]. rewrite IHn by lia. f_equal. lia.
Qed.
Lemma zrange_nth a b i : (i < Z.to_nat (b - a))%nat -> nth_error (zrange a b) i = Some (a + Z.of_nat i)%Z.
Proof. intro H. unfold zrange. rewrite nth_error_map, nth_error_seq by auto. reflexivity. Qed.

Lemma flat_map_nth {A B} (f : A -> list B) n l : (forall a, In a l -> len (f a) = n) ->
  len (flat_map f l) = (len l * n)%nat
  /\ forall i j a, (j < n)%nat -> nth_error l i = Some a -> nth_error (flat_map f l) (i * n + j) = nth_error (f a) j.
Proof.
  induction l as [|a l IH]; intro Hn; simpl; [split; auto; intros [|?] ? ? ? H; discriminate|].
  destruct IH as [IHl IHn]; [intros; apply Hn; right; auto|]. pose proof (Hn a (or_introl eq_refl)) as La. split.
  - rewrite app_length, IHl, La. auto.
  - intros [|i] j a' Hj H; simpl in H.
    + injection H as <-. cbn [Nat.mul Nat.add]. apply nth_error_app1. lia.
    + rewrite nth_error_app2 by (rewrite La; simpl; lia). rewrite <- (IHn i j a' Hj H). f_equal. rewrite La. simpl. lia.
Qed.

Lemma stack_ends ls s m nx ny nz : stack ls s m nx ny nz ->
  exists L, last_passive ls = Ok L /\ pl_size L = s /\ pl_lx L = INR nx * s /\ pl_ly L = INR ny * s
  /\ passive_z_range ls = Ok (IZR m * s, IZR (m + Z.of_nat nz) * s).
Proof.
  intros (Hs & Hn & Hpos & Hk). unfold passive_z_range, last_passive.
  assert (nth_error (rev (passives ls)) (nz - 1) = nth_error (passives ls) 0) as Hfirst.
  { destruct (passives ls) as [|P ps]; [simpl in *; lia|]. simpl. rewrite nth_error_app2 by (rewrite rev_length; simpl in Hn; lia).
    rewrite rev_length. simpl in Hn. replace (nz - 1 - len ps)%nat with 0%nat by lia. auto. }
  destruct (rev (passives ls)) as [|L rest] eqn:Er.
  { apply (f_equal (@List.length _)) in Er. rewrite rev_length in Er. simpl in Er. lia. }
  exists L. split; [auto|]. destruct (Hk 0%nat L eq_refl) as (H1 & H2 & H3 & H4). split; [auto|]. split; [auto|]. split; [auto|]. cbn [bind].
  destruct (passives ls) as [|L0 ps] eqn:Ep; [simpl in Hn; lia|]. simpl in Hfirst.
  destruct (Hk (nz - 1)%nat L0) as (G1 & G2 & G3 & G4); [exact Hfirst|].
  rewrite H4. replace (m + Z.of_nat 0)%Z with m by lia. do 2 f_equal.
  replace (m + Z.of_nat nz)%Z with (m + Z.of_nat (nz - 1) + 1)%Z by lia. rewrite plus_IZR. nra.
Qed.

Lemma edges_spec ls s m nx ny nz : stack ls s m nx ny nz ->
  exists es, build_xyz_edges ls = Ok es /\ len es = (nx * ny * nz)%nat
  /\ forall i j k L, (i < nx)%nat -> (j < ny)%nat -> nth_error (rev (passives ls)) k = Some L ->
       nth_error es ((i * ny + j) * nz + k) = Some (INR i * s, INR j * s, pl_z L - pl_size L).
Proof.
  intro Hst. destruct (stack_ends _ _ _ _ _ _ Hst) as (L & El & Es & Ex & Ey & Ez). destruct Hst as (Hs & Hn & Hpos & Hk).
  unfold build_xyz_edges. rewrite El. cbn [bind]. rewrite Ez. cbn [bind fst snd]. rewrite Ex, Ey, Es.
  assert (forall r, r * s / s = r) as Q by (intro; field; lra). rewrite !Q, !INR_IZR_INZ, !round_half_even_int.
  eexists. split; [reflexivity|].
  assert (forall a, In a (zrange 0 (Z.of_nat nx)) -> len ((fun i : Z => flat_map (fun j : Z => map (fun k : Z => (s * IZR i, s * IZR j, s * IZR k)) (zrange m (m + Z.of_nat nz)))
     (zrange 0 (Z.of_nat ny))) a) = (ny * nz)%nat) as Ha.
  { intros a _. cbv beta. edestruct (flat_map_nth (fun j : Z => map (fun k : Z => (s * IZR a, s * IZR j, s * IZR k)) (zrange m (m + Z.of_nat nz))) nz (zrange 0 (Z.of_nat ny))) as [-> _];
      [intros; rewrite map_length, zrange_len; lia|]. rewrite zrange_len. f_equal. lia. }
  destruct (flat_map_nth _ _ _ Ha) as [HL HN]. split.
  - rewrite HL, zrange_len. replace (Z.to_nat (Z.of_nat nx - 0)) with nx by lia. ring.
  - intros i j k L' Hi Hj HL'. assert (k < nz)%nat as Hkz by (rewrite <- Hn, <- rev_length; apply nth_error_Some; congruence).
    replace ((i * ny + j) * nz + k)%nat with (i * (ny * nz) + (j * nz + k))%nat by ring.
    assert (S j * nz <= ny * nz)%nat as Hjz by (apply Nat.mul_le_mono_r; lia). simpl in Hjz.
    rewrite (HN i (j * nz + k)%nat (0 + Z.of_nat i)%Z); [|lia|apply zrange_nth; lia].
    edestruct (flat_map_nth (fun j : Z => map (fun k : Z => (s * IZR (0 + Z.of_nat i), s * IZR j, s * IZR k)) (zrange m (m + Z.of_nat nz))) nz (zrange 0 (Z.of_nat ny))) as [_ HN2].
    { intros; rewrite map_length, zrange_len; lia. }
    rewrite (HN2 j k (0 + Z.of_nat j)%Z); [|auto|apply zrange_nth; lia].
    rewrite nth_error_map, zrange_nth by lia. cbn [option_map]. destruct (Hk k L' HL') as (_ & _ & _ & ->).
    rewrite !INR_IZR_INZ. cbn [Z.add]. f_equal. f_equal; [f_equal|]; ring.
Qed.

Lemma cube_spec ls f t V : v_layers V = ls -> (0 < len (passives ls))%nat ->
  (forall L, In L (passives ls) -> shape2 (f (pl_z L) (pl_lx L, pl_ly L) (pl_size L)) =
     match passives ls with L0 :: _ => shape2 (f (pl_z L0) (pl_lx L0, pl_ly L0) (pl_size L0)) | [] => [] end) ->
  exists cube, get_rad_cube (v_layers (volume_load f t V)) = Ok cube /\ len cube = len (passives ls)
  /\ forall k L, nth_error (rev (passives ls)) k = Some L -> nth_error cube k = Some (f (pl_z L) (pl_lx L, pl_ly L) (pl_size L)).
Proof.
  intros <- Hpos Hsh. unfold volume_load; cbn [v_layers]. unfold get_rad_cube.
  assert (forall l, passives (map (fun l => match l with LPass L => LPass (load_rad_length f L) | LDet D => LDet D end) l) = map (load_rad_length f) (passives l)) as Ep.
  { induction l as [|[L|D] l IH]; simpl; auto. f_equal; auto. }
  rewrite Ep, <- map_rev.
  assert (forall l, keep_some (map pl_rad (map (load_rad_length f) l)) = map (fun L => f (pl_z L) (pl_lx L, pl_ly L) (pl_size L)) l) as Ek.
  { induction l; simpl; auto. f_equal; auto. }
  set (g := fun L => f (pl_z L) (pl_lx L, pl_ly L) (pl_size L)) in *.
  assert (forall L L', In L (rev (passives (v_layers V))) -> In L' (rev (passives (v_layers V))) -> shape2 (g L) = shape2 (g L')) as Hsame.
  { intros L L' H H'. apply in_rev in H. apply in_rev in H'. unfold g. rewrite (Hsh L H), (Hsh L' H'). auto. }
  clear Hsh. rewrite <- (rev_length (passives (v_layers V))) in Hpos |- *.
  destruct (rev (passives (v_layers V))) as [|L0 rest] eqn:Er; [simpl in Hpos; lia|]. cbn [map].
  specialize (Ek (L0 :: rest)). cbn [map] in Ek. rewrite Ek.
  assert (forallb (fun m' => if list_eq_dec Nat.eq_dec (shape2 m') (shape2 (g L0)) then true else false) (map g rest) = true) as Hall.
  { apply forallb_forall. intros m Hm. apply in_map_iff in Hm as (L & <- & HL). destruct (list_eq_dec _ _ _) as [|Hne]; auto.
    exfalso. apply Hne. apply Hsame; [right; auto|left; auto]. }
  rewrite Hall. eexists. split; [reflexivity|]. split; [simpl; rewrite map_length; auto|].
  intros k L HL. change (g L0 :: map g rest) with (map g (L0 :: rest)). rewrite nth_error_map, HL. reflexivity.
Qed.

Lemma floor_div s x i : 0 < s -> IZR i * s <= x < (IZR i + 1) * s -> Rfloor (x / s) = i.
Proof.
  intros Hs [H1 H2]. apply Rfloor_unique. assert (x = x / s * s) as E by (field; lra). rewrite E in H1, H2.
  split; [apply Rmult_le_reg_r with s|apply Rmult_lt_reg_r with s]; auto.
Qed.

Lemma lookup_spec ls s m nx ny nz pts : stack ls s m nx ny nz ->
  match lookup_coords ls pts with
  | Ok (idx, _) => Forall (in_box s m nx ny nz) pts /\ Forall2 (in_voxel s m) idx pts
  | Err e => e = ValueError /\ Exists (fun p => ~ in_box s m nx ny nz p) pts
  end.
Proof.
  intro Hst. destruct (stack_ends _ _ _ _ _ _ Hst) as (L & El & Es & Ex & Ey & Ez). destruct Hst as (Hs & Hn & Hpos & Hk).
  unfold lookup_coords. rewrite El. cbn [bind]. rewrite Ez. cbn [bind fst snd]. rewrite Ex, Ey, Es.
  set (out := fun p : R * R * R => _).
  assert (forall p, out p = false <-> in_box s m nx ny nz p) as Hout.
  { intros [[x y] z]. unfold out, in_box. rewrite !orb_false_iff, !Rltb_false. tauto. }
  destruct (existsb out pts) eqn:Ee.
  - split; auto. apply existsb_exists in Ee as (p & Hp & Ho). apply Exists_exists. exists p. split; auto. intro H.
    apply Hout in H. congruence.
  - assert (Forall (in_box s m nx ny nz) pts) as Hin.
    { apply Forall_forall. intros p Hp. apply Hout. destruct (out p) eqn:Eo; auto. assert (existsb out pts = true); [|congruence].
      apply existsb_exists; eauto. }
    split; auto. rewrite map_map. clear Ee. induction pts as [|[[x y] z] pts IH]; simpl; constructor; [|apply IH; inversion Hin; auto].
    assert (forall x, IZR (Rfloor (x / s)) * s <= x < (IZR (Rfloor (x / s)) + 1) * s) as F.
    { intro w. pose proof (Rfloor_bounds (w / s)) as [F1 F2]. assert (w / s * s = w) as E by (field; lra). split; [rewrite <- E at 2|rewrite <- E at 1].
      apply Rmult_le_compat_r; lra. apply Rmult_lt_compat_r; lra. }
    cbn. rewrite plus_IZR. pose proof (F x). pose proof (F y). pose proof (F (z - IZR m * s)). repeat split; try tauto; nra.
Qed.

Lemma lookup_in_range ls s m nx ny nz pts : stack ls s m nx ny nz ->
  Forall (fun p : R * R * R => let '(x, y, z) := p in 0 <= x < INR nx * s /\ 0 <= y < INR ny * s /\ IZR m * s <= z < IZR (m + Z.of_nat nz) * s) pts ->
  exists idx pts', lookup_coords ls pts = Ok (idx, pts') /\ Forall2 (in_voxel s m) idx pts
  /\ Forall (fun ijk : Z * Z * Z => let '(i, j, k) := ijk in (0 <= i < Z.of_nat nx)%Z /\ (0 <= j < Z.of_nat ny)%Z /\ (0 <= k < Z.of_nat nz)%Z) idx.
Proof.
  intros Hst Hp. pose proof (lookup_spec ls s m nx ny nz pts Hst) as HL. destruct (lookup_coords ls pts) as [[idx pts']|e].
  - exists idx, pts'. split; auto. destruct HL as [_ HL]. split; auto. destruct Hst as (Hs & _).
    induction HL as [|[[i j] k] [[x y] z] idx pts Hv HL IH]; constructor; [|apply IH; inversion Hp; auto].
    apply Forall_inv in Hp. cbn in Hv. destruct Hp as (Px & Py & Pz). destruct Hv as (Vx & Vy & Vz). rewrite INR_IZR_INZ in Px, Py.
    rewrite plus_IZR in Pz, Vz.
    assert (forall a b, IZR a * s < (IZR b + 1) * s -> (a <= b)%Z) as Q.
    { intros a b H. apply Rmult_lt_reg_r in H; auto. rewrite <- plus_IZR in H. apply lt_IZR in H. lia. }
    assert (forall a b, IZR a * s < IZR b * s -> (a < b)%Z) as Q'.
    { intros a b H. apply Rmult_lt_reg_r in H; auto. apply lt_IZR in H. lia. }
    repeat split; try (apply Q; lra); try (apply Q'; lra).
  - exfalso. destruct HL as [_ HL]. apply Exists_exists in HL as (p & Hin & Hn). rewrite Forall_forall in Hp. specialize (Hp p Hin).
    apply Hn. destruct p as [[x y] z]. cbn. lra.
Qed.

(* ---------- C22: centres, and layers of the same size ---------- *)
Lemma split_index nx ny nz n : (n < nx * ny * nz)%nat -> exists i j k, (i < nx)%nat /\ (j < ny)%nat /\ (k < nz)%nat /\ n = ((i * ny + j) * nz + k)%nat.
Proof.
  intro H. assert (nz <> 0)%nat by (intro; subst; lia). assert (ny <> 0)%nat by (intro; subst; rewrite Nat.mul_0_r in H; cbn in H; lia).
  exists (n / nz / ny)%nat, ((n / nz) mod ny)%nat, (n mod nz)%nat.
  assert (n / nz < nx * ny)%nat by (apply Nat.div_lt_upper_bound; [auto|]; rewrite Nat.mul_comm; exact H).
  split; [apply Nat.div_lt_upper_bound; [auto|]; rewrite Nat.mul_comm; auto|]. split; [now apply Nat.mod_upper_bound|]. split; [now apply Nat.mod_upper_bound|].
  rewrite (Nat.mul_comm (n / nz / ny) ny), <- (Nat.div_mod (n / nz) ny) by auto. rewrite Nat.mul_comm. now apply Nat.div_mod.
Qed.
Lemma voxel_unique s m ijk ijk' p : 0 < s -> in_voxel s m ijk p -> in_voxel s m ijk' p -> ijk = ijk'.
Proof.
  intros Hs. destruct ijk as [[i j] k], ijk' as [[i' j'] k'], p as [[x y] z]. unfold in_voxel. intros (A & B & C) (A' & B' & C').
  assert (U : forall a b v, IZR a * s <= v < (IZR a + 1) * s -> IZR b * s <= v < (IZR b + 1) * s -> a = b).
  { intros a b v [H1 H2] [H3 H4]. assert (IZR a < IZR b + 1) by nra. assert (IZR b < IZR a + 1) by nra. rewrite <- plus_IZR in *. apply lt_IZR in H, H0. lia. }
  rewrite (U _ _ _ A A'), (U _ _ _ B B'). f_equal. pose proof (U _ _ _ C C'). lia.
Qed.
Lemma centres_spec ls s m nx ny nz : stack ls s m nx ny nz ->
  exists cs idx pts, xyz_centres ls = Ok cs /\ len cs = (nx * ny * nz)%nat /\ lookup_coords ls cs = Ok (idx, pts)
  /\ forall i j k L, (i < nx)%nat -> (j < ny)%nat -> nth_error (rev (passives ls)) k = Some L ->
       nth_error cs ((i * ny + j) * nz + k) = Some ((INR i + 1 / 2) * s, (INR j + 1 / 2) * s, pl_z L - pl_size L / 2)
       /\ nth_error idx ((i * ny + j) * nz + k) = Some (Z.of_nat i, Z.of_nat j, Z.of_nat k).
Proof.
  intro Hst. destruct (edges_spec _ _ _ _ _ _ Hst) as (es & Ee & Le & Ne).
  destruct (stack_ends _ _ _ _ _ _ Hst) as (L0 & El & Es & _). pose proof Hst as (Hs & Hn & Hpos & Hk).
  unfold xyz_centres. rewrite El. cbn [bind]. rewrite Ee. cbn [bind]. rewrite Es.
  set (cs := map _ es).
  assert (Nc : forall i j k L, (i < nx)%nat -> (j < ny)%nat -> nth_error (rev (passives ls)) k = Some L ->
    nth_error cs ((i * ny + j) * nz + k) = Some ((INR i + 1 / 2) * s, (INR j + 1 / 2) * s, pl_z L - pl_size L / 2)).
  { intros i j k L Hi Hj HL. unfold cs. rewrite (map_nth_error _ _ _ (Ne i j k L Hi Hj HL)). destruct (Hk k L HL) as (-> & _). f_equal. f_equal; [f_equal|]; lra. }
  assert (Lc : len cs = (nx * ny * nz)%nat) by (unfold cs; now rewrite map_length).
  assert (Layer : forall k, (k < nz)%nat -> exists L, nth_error (rev (passives ls)) k = Some L).
  { intros k Hkz. destruct (nth_error (rev (passives ls)) k) as [L|] eqn:E; [eauto|]. apply nth_error_None in E. rewrite rev_length in E. lia. }
  assert (V : forall i j k L, (i < nx)%nat -> (j < ny)%nat -> (k < nz)%nat -> nth_error (rev (passives ls)) k = Some L ->
    in_voxel s m (Z.of_nat i, Z.of_nat j, Z.of_nat k) ((INR i + 1 / 2) * s, (INR j + 1 / 2) * s, pl_z L - pl_size L / 2)).
  { intros i j k L Hi Hj Hkz HL. destruct (Hk k L HL) as (S1 & _ & _ & S2). unfold in_voxel. rewrite <- !INR_IZR_INZ. repeat split; nra. }
  destruct (lookup_in_range ls s m nx ny nz cs Hst) as (idx & pts & El' & F & _).
  { apply Forall_forall. intros p Hp. apply In_nth_error in Hp as [n Hp]. assert (Hl : (n < len cs)%nat) by (apply nth_error_Some; congruence).
    rewrite Lc in Hl. apply split_index in Hl as (i & j & k & Hi & Hj & Hkz & ->). destruct (Layer k Hkz) as [L HL].
    rewrite (Nc i j k L Hi Hj HL) in Hp. injection Hp as <-. destruct (Hk k L HL) as (S1 & _ & _ & S2).
    assert (INR i + 1 <= INR nx) by (rewrite <- S_INR; apply le_INR; lia). assert (INR j + 1 <= INR ny) by (rewrite <- S_INR; apply le_INR; lia).
    pose proof (pos_INR i). pose proof (pos_INR j). rewrite plus_IZR, <- INR_IZR_INZ in *. pose proof (pos_INR k).
    assert (INR k + 1 <= INR nz) by (rewrite <- S_INR; apply le_INR; lia).
    assert (0 <= INR k * s) by nra. repeat split; nra. }
  exists cs, idx, pts. split; [reflexivity|]. split; [exact Lc|]. split; [exact El'|]. intros i j k L Hi Hj HL. split; [now apply Nc|].
  assert (Hkz : (k < nz)%nat) by (rewrite <- Hn, <- rev_length; apply nth_error_Some; congruence).
  pose proof (Nc i j k L Hi Hj HL) as Hc.
  assert (exists v, nth_error idx ((i * ny + j) * nz + k) = Some v /\ in_voxel s m v ((INR i + 1 / 2) * s, (INR j + 1 / 2) * s, pl_z L - pl_size L / 2)) as (v & Hv & Iv).
  { clear - F Hc. revert Hc. generalize ((i * ny + j) * nz + k)%nat. intros n Hc. generalize dependent n.
    induction F as [|a b l l' R F IH]; intros [|n] Hc; cbn in *; try discriminate; [injection Hc as <-; eauto|eauto]. }
  rewrite Hv. f_equal. eapply voxel_unique; [exact Hs|exact Iv|now apply V].
Qed.
Lemma same_size argsort ls :
  ((exists L L', In L (passives ls) /\ In L' (passives ls) /\ (pl_lx L, pl_ly L, pl_size L) <> (pl_lx L', pl_ly L', pl_size L'))
     -> forall b, new_volume argsort ls b = Err ValueError)
  /\ ((forall L L', In L (passives ls) -> In L' (passives ls) -> (pl_lx L, pl_ly L, pl_size L) = (pl_lx L', pl_ly L', pl_size L'))
     -> ls <> [] -> new_volume argsort ls None = Ok (Volume ls None [] None))
  /\ forall b, new_volume argsort [] b = Err IndexError.
Proof.
  assert (Q : forall L L', same_passive L L' = true <-> (pl_lx L, pl_ly L, pl_size L) = (pl_lx L', pl_ly L', pl_size L')).
  { intros L L'. unfold same_passive. rewrite !andb_true_iff, !Reqb_true. split; [intros ((-> & ->) & ->); auto|]. intros [= -> -> ->]. auto. }
  split; [|split; [|reflexivity]].
  - intros (L & L' & HL & HL' & N) b. unfold new_volume, check_passives. destruct ls as [|l0 ls0]; [destruct HL|]. cbn [get_device bind].
    set (ls := l0 :: ls0) in *. clearbody ls. destruct (passives ls) as [|L0 rest]; [destruct HL|]. destruct (forallb (same_passive L0) rest) eqn:E; [|reflexivity]. exfalso. apply N. rewrite forallb_forall in E.
    assert (K : forall M, In M (L0 :: rest) -> (pl_lx L0, pl_ly L0, pl_size L0) = (pl_lx M, pl_ly M, pl_size M)) by (intros M [<-|HM]; [auto|now apply Q, E]).
    now rewrite <- (K L HL), <- (K L' HL').
  - intros H N. unfold new_volume, check_passives. destruct ls as [|l0 ls0]; [now destruct N|]. cbn [get_device bind].
    set (ls := l0 :: ls0) in *. clearbody ls. destruct (passives ls) as [|L0 rest]; [reflexivity|].
    replace (forallb (same_passive L0) rest) with true; [reflexivity|]. symmetry. apply forallb_forall. intros M HM. apply Q, H; [now left|now right].
Qed.
