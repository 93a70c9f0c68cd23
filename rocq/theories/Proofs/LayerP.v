(* C10-C13: crossing a passive layer. *)
From Coq Require Import ZArith Psatz.
From Verif Require Import Base.Trig Model.Layer Spec.MuonSpec Spec.AngleSpec Spec.LayerSpec
  Proofs.MuonBatchP Proofs.MuonConserve Proofs.MuonAngles Proofs.MuonMoves.
Open Scope R_scope.
Open Scope list_scope.

(* ---------- filtering, completely ---------- *)
Lemma select_select {A} (l : list A) : forall k1 k2,
  len k1 = len l -> len k2 = count_true k1 ->
  exists k, len k = len l /\ forall B (l' : list B), len l' = len l -> select k2 (select k1 l') = select k l'.
Proof.
  induction l as [|a l IH]; intros k1 k2 H1 H2.
  - exists []. split; auto. intros B l' Hl. destruct l'; [|discriminate]. destruct k1; [|discriminate]. simpl in *.
    destruct k2; auto.
  - destruct k1 as [|b k1]; [discriminate|]. simpl in *. destruct b; simpl in *.
    + destruct k2 as [|b2 k2]; [discriminate|]. simpl in H2.
      destruct (IH k1 k2 ltac:(lia) ltac:(lia)) as [k [Hk E]]. exists (b2 :: k). split; [simpl; lia|].
      intros B [|x l'] Hl; [discriminate|]. simpl. destruct b2; rewrite (E B l') by (simpl in Hl; lia); auto.
    + destruct (IH k1 k2 ltac:(lia) ltac:(lia)) as [k [Hk E]]. exists (false :: k). split; [simpl; lia|].
      intros B [|x l'] Hl; [discriminate|]. simpl. apply E. simpl in Hl; lia.
Qed.

Lemma keep_hits_all {H} n (d : hits_dict H) : aligned n d -> keep_hits (all_true n) d = d.
Proof.
  intro A. unfold keep_hits. rewrite <- (map_id d) at 2. apply map_ext_in. intros [p vs] Hp. simpl. f_equal.
  rewrite <- (map_id vs) at 2. apply map_ext_in. intros [v ts] Hv. simpl. f_equal.
  rewrite <- (map_id ts) at 2. apply map_ext_in. intros t Ht.
  rewrite <- (A p vs v ts t Hp Hv Ht). apply select_all.
Qed.

Lemma keep_hits_aligned {H} keep (d : hits_dict H) : aligned (len keep) d -> aligned (count_true keep) (keep_hits keep d).
Proof.
  intros A p vs v ts t Hp Hv Ht. unfold keep_hits in Hp.
  apply in_map_iff in Hp as [[p0 vs0] [E Hp]]. simpl in E. injection E as <- <-.
  apply in_map_iff in Hv as [[v0 ts0] [E Hv]]. simpl in E. injection E as <- <-.
  apply in_map_iff in Ht as [t0 [<- Ht]]. apply select_length. symmetry. eapply A; eauto.
Qed.

Lemma keep_hits_comp {H} n k1 k2 k (d : hits_dict H) :
  aligned n d -> (forall B (l' : list B), len l' = n -> select k2 (select k1 l') = select k l') ->
  keep_hits k2 (keep_hits k1 d) = keep_hits k d.
Proof.
  intros A E. unfold keep_hits. rewrite map_map. apply map_ext_in. intros [p vs] Hp. simpl. f_equal.
  rewrite map_map. apply map_ext_in. intros [v ts] Hv. simpl. f_equal.
  rewrite map_map. apply map_ext_in. intros t Ht. apply E. eapply A; eauto.
Qed.

Lemma filter_full {H} keep (b : batch H) :
  len keep = len (b_muons b) -> aligned (len (b_muons b)) (b_hits b) ->
  exists b', filter_muons keep b = Ok b'
    /\ b_muons b' = select keep (b_muons b)
    /\ b_hits b' = keep_hits keep (b_hits b)
    /\ b_hist b' = b_hist b
    /\ removed_of b' = removed_of b ++ select (negm keep) (b_muons b).
Proof.
  intros L A. unfold filter_muons. destruct (Nat.ltb_spec (count_true keep) (len (b_muons b))) as [Hlt|Hge].
  - rewrite bool_index_ok by (rewrite negm_length; auto). cbn [bind].
    rewrite bool_index_ok by auto. cbn [bind].
    rewrite (mapM_ok _ (fun pv : string * list (string * list (list H)) =>
         (fst pv, map (fun vt : string * list (list H) => (fst vt, map (select keep) (snd vt))) (snd pv)))).
    + cbn [bind]. eexists; split; [reflexivity|]. cbn. repeat split; auto.
      unfold removed_of; cbn. destruct (b_removed b); auto.
    + apply Forall_forall. intros [p vs] Hp. simpl.
      rewrite (mapM_ok _ (fun vt : string * list (list H) => (fst vt, map (select keep) (snd vt)))); [reflexivity|].
      apply Forall_forall. intros [v ts] Hv. simpl.
      rewrite (mapM_ok _ (select keep)); [reflexivity|].
      apply Forall_forall. intros t Ht. apply bool_index_ok. rewrite L. symmetry. eapply A; eauto.
  - exists b. split; auto.
    assert (count_true keep = len keep) as E by (pose proof (count_true_le keep); lia).
    apply count_true_full in E. rewrite L in E. rewrite E. rewrite select_all, keep_hits_all by auto.
    repeat split; auto. assert (select (negm (all_true (len (b_muons b)))) (b_muons b) = []) as ->; [|rewrite app_nil_r; auto].
    clear. induction (b_muons b); simpl; auto.
Qed.

Lemma survivors_trans {H} (a b c : batch H) :
  aligned (len (b_muons a)) (b_hits a) -> survivors a b -> survivors b c -> survivors a c.
Proof.
  intros A (k1 & L1 & M1 & H1) (k2 & L2 & M2 & H2).
  assert (len k2 = count_true k1) as L2'.
  { rewrite L2, <- (map_length mp), M1. apply select_length. rewrite map_length; auto. }
  destruct (select_select (b_muons a) k1 k2 L1 L2') as [k [Lk E]].
  exists k. split; auto. split.
  - rewrite M2, M1. apply E. apply map_length.
  - rewrite H2, H1. eapply keep_hits_comp; eauto.
Qed.
Lemma survivors_same {H} (b : batch H) ms :
  aligned (len (b_muons b)) (b_hits b) -> map mp ms = map mp (b_muons b) -> survivors b (with_muons b ms).
Proof.
  intros A E. exists (all_true (len (b_muons b))). split; [apply all_true_length|]. split.
  - cbn. rewrite E. rewrite <- (map_length mp (b_muons b)). rewrite select_all; auto.
  - cbn. rewrite keep_hits_all; auto.
Qed.
Lemma survivors_aligned {H} (b b' : batch H) :
  aligned (len (b_muons b)) (b_hits b) -> survivors b b' -> aligned (len (b_muons b')) (b_hits b').
Proof.
  intros A (k & L & M & E). rewrite E. rewrite <- (map_length mp (b_muons b')), M, select_length by (rewrite map_length; auto).
  apply keep_hits_aligned. rewrite L; auto.
Qed.

(* ---------- one step, muon by muon ---------- *)
Definition rank (m : list bool) (i : nat) : nat := count_true (firstn i m).

Lemma map2_sel_seq {A B C} (f : A -> B -> C) (rng : nat -> B) m : forall k (l : list A), len m = len l ->
  map2 f (select m l) (map rng (seq k (len (select m l)))) = select m (mapi (fun i a => f a (rng (k + rank m i)%nat)) l).
Proof.
  induction m as [|b m IH]; intros k [|a l] L; simpl in *; try discriminate; auto.
  destruct b; simpl.
  - unfold rank at 1. simpl. rewrite Nat.add_0_r. f_equal. rewrite IH by lia. f_equal. apply mapi_ext. intros i x.
    unfold rank. simpl. do 2 f_equal. lia.
  - rewrite IH by lia. f_equal.
Qed.

Lemma mapM_inv {A B} (f : A -> res B) l r : mapM f l = Ok r -> forall a, In a l -> exists b, f a = Ok b.
Proof.
  revert r; induction l as [|x l IH]; simpl; intros r E a Ha; [contradiction|]. destruct Ha as [->|Ha].
  - apply bind_ok in E as [b [E _]]. eauto.
  - apply bind_ok in E as [b [_ E]]. apply bind_ok in E as [bs [E _]]. eauto.
Qed.

Section Step.
Variable H : Type.
Variable L : passive.
Variable rad : list (list R).
Hypothesis Hrad : pl_rad L = Some rad.
Variable rng : nat -> draw.

Definition x0_of (u : muon) : R := match lookup_x0 L rad u with Ok x => x | Err _ => 0 end.
Definition step_of (u : muon) : xr :=
  let r_out := xdiv (xsub (mz u) (Fin (pl_bot L))) (xcos (mth u)) in
  if xlt r_out (Fin (pl_step L)) then r_out else Fin (pl_step L).
Definition scat_of (u : muon) (d : draw) : scattering :=
  pdg_scatter1 (Fin (x0_of u)) (mth u) (mph u) (mu_theta_x u) (mu_theta_y u) (mp u) (step_of u) d.
Definition over (u : muon) : bool := in_xy (Some (Fin 0, Fin 0)) (Some (Fin (pl_lx L), Fin (pl_ly L))) u.

Definition displaced (s : scattering) (u : muon) : muon :=
  move1 (Some (s_dx_vol s)) (Some (s_dy_vol s)) (Some (s_dz_vol s)) u.
Definition pulled (u : muon) : muon :=
  if xlt (xsub (mz u) (Fin (pl_bot L))) (Fin 0) then go_dz1 (xsub (mz u) (Fin (pl_bot L))) u else u.
Definition turned_by (s : scattering) (u : muon) : muon :=
  turn_xy1 (Some (s_dtheta_x_vol s)) (Some (s_dtheta_y_vol s)) u.
(* one muon through one step, before the removal of upward muons *)
Definition step1 (inm : bool) (d : draw) (u : muon) : muon :=
  if inm then
    if over u then turned_by (scat_of u d) (pulled (go_d1 (Fin (pl_step L)) (displaced (scat_of u d) u)))
    else pulled (go_d1 (Fin (pl_step L)) u)
  else u.

Lemma mask_len_and (a b : list bool) : len a = len b -> mask_and a b = Ok (map2 andb a b).
Proof. intro E. unfold mask_and. rewrite E, Nat.eqb_refl. auto. Qed.

Lemma nth_and {A} (p : A -> bool) l mask i a :
  nth_error l i = Some a -> len mask = len l -> nth i (map2 andb (map p l) mask) false = p a && nth i mask false.
Proof.
  revert i mask. induction l as [|v l IH]; intros [|i] [|q mask] Hu Lm; simpl in *; try discriminate.
  - injection Hu as ->. auto.
  - apply IH; auto.
Qed.
Lemma nth_mapi {A B} (f : nat -> A -> B) l i (d : B) a : nth_error l i = Some a -> nth i (mapi f l) d = f i a.
Proof.
  revert f i; induction l as [|x l IH]; intros f [|i]; simpl; intro E; try discriminate; [congruence|].
  apply (IH (fun i => f (S i))). auto.
Qed.

Lemma nth_error_mapi_ext {A B} (f g : nat -> A -> B) l :
  (forall i a, nth_error l i = Some a -> f i a = g i a) -> mapi f l = mapi g l.
Proof.
  revert f g; induction l as [|x l IH]; intros f g E; simpl; auto. f_equal; [apply (E 0%nat); auto|].
  apply IH. intros i a Ha. apply (E (S i)); auto.
Qed.

Lemma upd_pointwise m f g (ms : list muon) :
  (forall i u, nth_error ms i = Some u -> nth i m false = true -> f i u = g i u) -> upd m f ms = upd m g ms.
Proof.
  intro E. unfold upd. apply nth_error_mapi_ext. intros i u Hu. destruct (nth i m false) eqn:Em; auto.
Qed.
Lemma upd_len m f ms : len (upd m f ms) = len ms.
Proof. apply mapi_length. Qed.

Definition smask (mask : list bool) (ms : list muon) : list bool := map2 andb (map over ms) mask.

Lemma step_lookups (mask : list bool) (b : batch H) b' :
  len mask = len (b_muons b) ->
  scatter_and_propagate L rng mask b = Ok b' ->
  (pl_model L = "pdg")%string /\ forall u, In u (select (smask mask (b_muons b)) (b_muons b)) -> lookup_x0 L rad u = Ok (x0_of u).
Proof.
  intros Lm E. unfold scatter_and_propagate in E. rewrite Hrad in E.
  set (ms := b_muons b) in *.
  assert (get_xy_mask (Some (Fin 0, Fin 0)) (Some (Fin (pl_lx L), Fin (pl_ly L))) b = map over ms) as Exy by reflexivity.
  rewrite Exy in E. rewrite mask_len_and in E by (rewrite map_length; auto). cbn [bind] in E.
  change (map2 andb (map over ms) mask) with (smask mask ms) in E.
  set (sm := smask mask ms) in *.
  assert (len sm = len ms) as Lsm by (unfold sm, smask; rewrite map2_length, map_length; lia).
  rewrite bool_index_ok in E by auto. cbn [bind] in E.
  apply bind_ok in E as [x0 [Ex0 E]]. cbv zeta in E. apply bind_ok in E as [sc [Esc E]]. split.
  - unfold compute_scattering in Esc. destruct (String.eqb_spec (pl_model L) "pdg"%string) as [|_]; auto.
    destruct (String.eqb (pl_model L) "pgeant"%string); discriminate.
  - intros u Hu. destruct (mapM_inv _ _ _ Ex0 u Hu) as [v Ev]. unfold x0_of. rewrite Ev; auto.
Qed.

Lemma step_eq (mask : list bool) (b : batch H) :
  (pl_model L = "pdg")%string ->
  len mask = len (b_muons b) ->
  (forall u, In u (select (smask mask (b_muons b)) (b_muons b)) -> lookup_x0 L rad u = Ok (x0_of u)) ->
  scatter_and_propagate L rng mask b =
  remove_upwards_muons (with_muons b (mapi (fun i u => step1 (nth i mask false) (rng (rank (smask mask (b_muons b)) i)) u) (b_muons b))).
Proof.
  intros Hp Lm Hx0.
  match goal with |- ?lhs = ?r => remember lhs as rr eqn:E; symmetry in E; cut (r = rr); [auto|] end.
  unfold scatter_and_propagate in E. rewrite Hrad in E.
  set (ms := b_muons b) in *.
  assert (get_xy_mask (Some (Fin 0, Fin 0)) (Some (Fin (pl_lx L), Fin (pl_ly L))) b = map over ms) as Exy by reflexivity.
  rewrite Exy in E. rewrite mask_len_and in E by (rewrite map_length; auto). cbn [bind] in E.
  change (map2 andb (map over ms) mask) with (smask mask ms) in E.
  set (sm := smask mask ms) in *.
  assert (len sm = len ms) as Lsm by (unfold sm, smask; rewrite map2_length, map_length; lia).
  rewrite bool_index_ok in E by auto. cbn [bind] in E.
  rewrite (mapM_ok _ x0_of) in E by (apply Forall_forall; auto). cbn [bind] in E.
  unfold compute_scattering in E. rewrite Hp in E. cbn [String.eqb Ascii.eqb Bool.eqb] in E. cbv zeta in E. cbn [bind] in E.
  match type of E with context [map2 ?f ?a (map rng ?s)] => set (F := f) in E; set (args := a) in E end.
  assert (args = map (fun u => (u, x0_of u, step_of u)) (select sm ms)) as Eargs.
  { unfold args. clear. induction (select sm ms) as [|u l IH]; simpl; auto. f_equal. auto. }
  assert (map2 F args (map rng (seq 0 (len args))) = select sm (mapi (fun i u => scat_of u (rng (rank sm i))) ms)) as Esc.
  { rewrite Eargs, map_length. rewrite map2_map_l. apply (map2_sel_seq (fun u d => scat_of u d) rng sm 0 ms). auto. }
  rewrite Esc in E. clear Eargs Esc args F.
  set (SC := mapi (fun i u => scat_of u (rng (rank sm i))) ms) in *.
  assert (len SC = len ms) as LSC by apply mapi_length.
  assert (forall (g : scattering -> xr), Some (Vec (map g (select sm SC))) = call_argo (Some sm) (Some (SEach (map g SC)))) as Hcall
    by (intro g; cbn; rewrite select_map; auto).
  rewrite !Hcall in E.
  assert (forall g : scattering -> xr, arg_ok (len ms) (Some (SEach (map g SC))) = true) as Harg
    by (intro g; cbn; rewrite map_length, LSC, Nat.eqb_refl; auto).
  (* displacement *)
  pose proof (move_spec ms (Some sm) ltac:(cbn; rewrite Lsm, Nat.eqb_refl; auto) _ _ _ (Harg s_dx_vol) (Harg s_dy_vol) (Harg s_dz_vol)) as T1.
  cbn [mask_or_ones] in T1.
  rewrite (upd_pointwise _ _ (fun i u => displaced (scat_of u (rng (rank sm i))) u)) in T1.
  2:{ intros i u Hu _. cbn [at_io at_i]. unfold displaced, SC.
      rewrite !map_mapi. rewrite !(nth_mapi _ _ _ _ _ Hu). reflexivity. }
  set (ms1 := upd sm _ ms) in T1.
  match type of E with bind ?sd _ = _ => assert (sd = Ok (with_muons b ms1)) as E1 end.
  { unfold scatter_dxyz. cbn [mask_or_ones]. cbv zeta. fold ms.
    apply bind_ok in T1 as [m1 [A1 T1]]. rewrite A1. cbn [bind].
    apply bind_ok in T1 as [m2 [A2 T1]]. rewrite A2. cbn [bind]. rewrite T1. reflexivity. }
  rewrite E1 in E. cbn [bind] in E. clear E1 T1.
  (* propagation *)
  unfold propagate_d in E. cbn [b_muons with_muons mask_or_ones] in E.
  assert (len ms1 = len ms) as L1 by apply upd_len.
  pose proof (go_d_spec ms1 (Some mask) ltac:(cbn; rewrite Lm, L1, Nat.eqb_refl; auto) (SAll (Fin (pl_step L))) eq_refl) as T2.
  cbn [mask_or_ones call_arg] in T2. rewrite T2 in E. clear T2. cbn [bind] in E. cbn [at_i] in E.
  set (ms2 := upd mask _ ms1) in E. assert (len ms2 = len ms) as L2 by (unfold ms2; rewrite upd_len; auto).
  cbn [b_muons with_muons] in E.
  (* exit *)
  rewrite mask_len_and in E by (rewrite !map_length; lia). cbn [bind] in E.
  set (DZ := map (fun u => xsub (mz u) (Fin (pl_bot L))) ms2) in *.
  set (em := map2 andb (map (fun v => xlt v (Fin 0)) DZ) mask) in *.
  assert (len em = len ms) as Lem by (unfold em, DZ; rewrite map2_length, !map_length; lia).
  assert (len DZ = len ms) as LDZ by (unfold DZ; rewrite map_length; auto).
  rewrite bool_index_ok in E by lia. cbn [bind] in E.
  unfold propagate_dz in E. cbn [b_muons with_muons mask_or_ones] in E.
  pose proof (go_dz_spec ms2 (Some em) ltac:(cbn; rewrite Lem, L2, Nat.eqb_refl; auto) (SEach DZ) ltac:(cbn; rewrite LDZ, L2, Nat.eqb_refl; auto)) as T3.
  cbn [mask_or_ones call_arg] in T3. rewrite T3 in E. clear T3. cbn [bind] in E.
  set (ms3 := upd em _ ms2) in E. assert (len ms3 = len ms) as L3 by (unfold ms3; rewrite upd_len; auto).
  unfold scatter_dtheta_xy in E. cbn [b_muons with_muons mask_or_ones] in E. cbv zeta in E.
  pose proof (turn_xy_spec ms3 (Some sm) ltac:(cbn; rewrite Lsm, L3, Nat.eqb_refl; auto) (Some (SEach (map s_dtheta_x_vol SC))) (Some (SEach (map s_dtheta_y_vol SC)))
    ltac:(rewrite L3; apply Harg) ltac:(rewrite L3; apply Harg)) as T4.
  cbn [mask_or_ones] in T4. rewrite T4 in E. clear T4. cbn [bind] in E.
  rewrite <- E. f_equal. unfold with_muons. cbn [b_removed b_hits b_hist]. f_equal.
  (* muon by muon *)
  unfold ms3, ms2, ms1, upd. rewrite !mapi_mapi.
  apply nth_error_mapi_ext. intros i u Hu.
  assert (nth i sm false = over u && nth i mask false) as Esm.
  { apply nth_and; auto. }
  assert (nth_error ms2 i = Some (nth i ms2 u)) as Hu2
    by (apply nth_error_nth'; rewrite L2; apply nth_error_Some; congruence).
  assert (nth i em false = xlt (xsub (mz (nth i ms2 u)) (Fin (pl_bot L))) (Fin 0) && nth i mask false) as Eem.
  { unfold em, DZ. rewrite map_map. rewrite (nth_and _ _ _ _ _ Hu2) by (fold ms in Lm; lia). reflexivity. }
  assert (forall g : scattering -> xr, nth i (map g SC) NaN = g (scat_of u (rng (rank sm i)))) as Hg
    by (intro g; unfold SC; rewrite map_mapi, (nth_mapi _ _ _ _ _ Hu); reflexivity).
  assert (nth i ms2 u = (fun u => if nth i mask false then go_d1 (Fin (pl_step L)) (if nth i sm false then displaced (scat_of u (rng (rank sm i))) u else u) else (if nth i sm false then displaced (scat_of u (rng (rank sm i))) u else u)) u) as En2.
  { unfold ms2, ms1, upd. rewrite mapi_mapi, (nth_mapi _ _ _ _ _ Hu); reflexivity. }
  assert (nth i DZ NaN = xsub (mz (nth i ms2 u)) (Fin (pl_bot L))) as EDZ.
  { unfold DZ. rewrite (nth_indep _ NaN (xsub (mz u) (Fin (pl_bot L)))) by (fold DZ; rewrite LDZ; apply nth_error_Some; congruence).
    apply (map_nth (fun u => xsub (mz u) (Fin (pl_bot L)))). }
  cbn [at_io at_i]. rewrite !Hg, EDZ, Eem, En2, Esm. unfold step1, pulled, turned_by.
  destruct (nth i mask false) eqn:Em; destruct (over u) eqn:Eo; cbn [andb]; rewrite ?andb_true_r, ?andb_false_r; auto.
Qed.
End Step.
