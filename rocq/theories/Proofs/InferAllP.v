(* Predictions for a whole volume. *)
From Coq Require Import Psatz Lia ZArith.
From Verif Require Import Model.X0Infer Spec.VolumeSpec Spec.InferSpec Proofs.EffP Proofs.WAvgP Proofs.InferStateP Proofs.CombineP Proofs.VoxelProbP Proofs.PanelP Proofs.PanelResp.
Open Scope R_scope.
Open Scope list_scope.

Definition n3 (p : xr * xr * xr) : R * R * R := let '(x, y, z) := p in (num x, num y, num z).
Definition as_used (eff : R) (prob : R) (k : smuon) : used_muon :=
  Used (n3 (k_poca k)) (n3 (k_poca_u k)) (num (k_tot k)) (num (k_tot_u k)) (num (k_in k)) (num (k_in_u k)) (num (k_out k)) (num (k_out_u k)) (num (k_mom k)) eff prob.
Lemma num_fin a : xisfin a = true -> Fin (num a) = a.
Proof. destruct a; try discriminate. reflexivity. Qed.
Lemma numbers_rows k e p : all_numbers k = true -> var_row (as_used e p k) = k_vars k /\ unc_row (as_used e p k) = k_uncs k.
Proof.
  unfold all_numbers, k_vars, k_uncs, var_row, unc_row, as_used, t3, xl3, n3. destruct (k_poca k) as [[x y] z], (k_poca_u k) as [[x' y'] z'].
  cbn [app forallb w_poca w_poca_u w_tot w_tot_u w_in w_in_u w_out w_out_u w_mom]. rewrite !andb_true_iff. intros [H H'].
  repeat match goal with H : _ /\ _ |- _ => destruct H end. rewrite !num_fin by auto. auto.
Qed.
Lemma numbers_three k : all_numbers k = true -> three (k_vars k) = Some (n3 (k_poca k)) /\ three (k_uncs k) = Some (n3 (k_poca_u k)).
Proof.
  unfold all_numbers, k_vars, k_uncs, t3, n3. destruct (k_poca k) as [[x y] z], (k_poca_u k) as [[x' y'] z'].
  cbn [app forallb]. rewrite !andb_true_iff. intros [H H']. repeat match goal with H : _ /\ _ |- _ => destruct H end.
  repeat match goal with H : xisfin ?a = true |- _ => destruct a; try discriminate H; clear H end. auto.
Qed.

Section V.
Variables (ls : list layer) (s : R) (m : Z) (nx ny nz : nat) (g : grid) (cdf : R -> R -> R -> R) (pu : list xr -> tensor2 -> tensor2 -> list xr).
Hypotheses (St : stack ls s m nx ny nz) (Gr : grid_of ls = Ok g) (Cd : is_cdf cdf).
Lemma grid_shape : g_nx g = nx /\ g_ny g = ny /\ g_nz g = nz /\ g_size g = s /\ List.length (g_edges g) = (nx * ny * nz)%nat.
Proof. destruct (grid_stack _ _ _ _ _ _ St) as (es & E & L & _). rewrite E in Gr. injection Gr as <-. auto. Qed.
Lemma muon_probs_ok k : all_numbers k = true -> poca_unc_ok k ->
  exists ps, muon_probs cdf g (k_vars k) (k_uncs k) = Ok (map Fin ps) /\ List.length ps = (nx * ny * nz)%nat /\ Forall (fun q => 0 < q) ps.
Proof.
  intros N U. destruct (numbers_three k N) as [Tv Tu]. assert (nonneg3 (n3 (k_poca_u k))) as U' by (unfold nonneg3, n3, poca_unc_ok in *; destruct (k_poca_u k) as [[x y] z]; auto).
  destruct (probs_spec _ _ _ _ _ _ cdf _ _ _ _ St Cd U' Tv Tu) as (g' & ps & E & M & L & _ & P & _). rewrite Gr in E. injection E as <-. eauto.
Qed.
Lemma all_probs_ok ks : (forall k, In k ks -> all_numbers k = true /\ poca_unc_ok k) ->
  exists pss, mapM (fun vu => muon_probs cdf g (fst vu) (snd vu)) (combine (map k_vars ks) (map k_uncs ks)) = Ok (map (map Fin) pss)
  /\ Forall (fun ps => List.length ps = (nx * ny * nz)%nat /\ Forall (fun q => 0 < q) ps) pss /\ List.length pss = List.length ks.
Proof.
  induction ks as [|k ks IH]; intro H; [exists []; auto|]. destruct (H k (or_introl eq_refl)) as [N U]. destruct (muon_probs_ok k N U) as (ps & E & L & P).
  destruct IH as (pss & Es & F & Ln); [intros; apply H; right; auto|]. exists (ps :: pss). cbn [map combine mapM fst snd]. rewrite E. cbn [bind]. rewrite Es. cbn [bind].
  split; [reflexivity|]. split; [constructor; auto|simpl; auto].
Qed.
Definition used_at (e : smuon -> R) (j : nat) (kps : list (smuon * list R)) : list used_muon := map (fun kp => as_used (e (fst kp)) (nth j (snd kp) 0) (fst kp)) kps.
Lemma scan_preds bss (e : smuon -> R) : bss <> [] -> (1 <= nx)%nat -> (1 <= ny)%nat ->
  (forall ms, In ms bss -> panel_efficiency (view ms) = Ok (map (fun k => Fin (e k)) ms)) ->
  let kept := filter all_numbers (concat bss) in
  (forall k, In k kept -> poca_unc_ok k) ->
  exists pss, List.length pss = List.length kept /\ Forall (fun ps => List.length ps = (nx * ny * nz)%nat /\ Forall (fun q => 0 < q) ps) pss
  /\ interact g cdf panel_efficiency pu (scan bss) new_inf =
     let xs := map (fun j => predicted s (used_at e j (combine kept pss))) (seq 0 (nx * ny * nz)) in
     [if existsb xisnan xs then Err ValueError else Ok (AVec xs)].
Proof.
  intros Nb Nx Ny H kept U. destruct grid_shape as (Gx & Gy & Gz & Gs & Ge).
  assert (forall k, In k kept -> all_numbers k = true /\ poca_unc_ok k) as K by (intros k I; split; auto; apply filter_In in I as [_ I]; auto).
  destruct (all_probs_ok kept K) as (pss & E & F & L). exists pss. split; auto. split; auto.
  unfold scan. rewrite <- (map_map (fun ms => Ok (view ms)) Add). change [Ask RPrediction] with (map Ask [RPrediction]).
  rewrite asked_after by (apply (view_good _ (fun k => Fin (e k))); auto). cbn [map]. f_equal. cbn [known].
  destruct (map (fun ms => Ok (view ms)) bss) as [|b0 bs0] eqn:Eb; [destruct bss; [congruence|discriminate]|]. rewrite <- Eb. clear Eb b0 bs0.
  rewrite (combined_view _ (fun k => Fin (e k))) by auto. fold kept. cbn [bind]. unfold pprobs. rewrite E. cbn [bind].
  assert (shape_ok g (List.length kept) (List.length (map (map Fin) pss)) = true) as ->.
  { unfold shape_ok. rewrite map_length, L, Ge, Gx, Gy, Gz, Nat.eqb_refl, andb_true_r. apply negb_true_iff, Nat.eqb_neq.
    assert (0 < nz)%nat by (destruct St as (_ & _ & ? & _); auto). destruct nx, ny, nz; try lia; simpl; lia. }
  cbn [bind]. unfold ppreds. rewrite map_length, Nat.eqb_refl. unfold voxel_preds. rewrite Gx, Gy, Gz, Gs.
  assert (map (fun j => voxel_x0 s (map k_vars kept) (map k_uncs kept) (map (fun k => Fin (e k)) kept) (map (fun p => nth j p NaN) (map (map Fin) pss))) (seq 0 (nx * ny * nz))
          = map (fun j => predicted s (used_at e j (combine kept pss))) (seq 0 (nx * ny * nz))) as ->.
  { apply map_ext_in. intros j Ij. apply in_seq in Ij. unfold predicted, used_at. rewrite !map_map. cbn [as_used w_eff w_prob].
    assert (forall B (f : smuon -> B), map (fun x : smuon * list R => f (fst x)) (combine kept pss) = map f kept) as Q1.
    { intros B f. clear - L. revert pss L. induction kept as [|k ks IH]; intros [|ps pss] L; try discriminate; [reflexivity|]. cbn [combine map fst]. f_equal. apply IH. auto. }
    assert (forall kp, In kp (combine kept pss) -> all_numbers (fst kp) = true) as Q2 by (intros [k ps] I; apply in_combine_l in I; apply K; auto).
    f_equal.
    - rewrite <- Q1. apply map_ext_in. intros kp I. symmetry. apply numbers_rows. auto.
    - rewrite <- Q1. apply map_ext_in. intros kp I. symmetry. apply numbers_rows. auto.
    - rewrite <- (Q1 xr (fun k => Fin (e k))). reflexivity.
    - clear - L F Ij. clearbody kept. revert pss L F. induction kept as [|k ks IH]; intros [|ps pss] L F; try discriminate; [reflexivity|]. inversion F as [|? ? [Lp _] F']; subst.
      cbn [map combine snd]. f_equal; [|apply IH; auto]. rewrite (nth_indep (map Fin ps) NaN (Fin 0)) by (rewrite map_length; lia). apply (map_nth Fin). }
  destruct (existsb xisnan _); reflexivity.
Qed.
Lemma used_at_useful e j kept pss : (j < nx * ny * nz)%nat -> List.length pss = List.length kept ->
  Forall (fun ps => List.length ps = (nx * ny * nz)%nat /\ Forall (fun q => 0 < q) ps) pss ->
  (forall k, In k kept -> 0 <= e k) -> (exists k, In k kept /\ 0 < e k) -> useful (used_at e j (combine kept pss)).
Proof.
  intros J L F P (k & I & E). split.
  - intros u Iu. apply in_map_iff in Iu as ([k' ps] & <- & Iu). cbn [as_used w_eff w_prob fst snd]. pose proof (in_combine_r _ _ _ _ Iu) as Ip. apply in_combine_l in Iu.
    split; [auto|]. rewrite Forall_forall in F. destruct (F ps Ip) as [Lp Fp]. rewrite Forall_forall in Fp. apply Fp, nth_In. lia.
  - apply In_nth_error in I as [i I]. assert (exists ps, nth_error pss i = Some ps) as [ps Ip].
    { destruct (nth_error pss i) eqn:Q; eauto. apply nth_error_None in Q. apply nth_error_Some_lt in I || (assert (i < List.length kept)%nat by (apply nth_error_Some; congruence)); lia. }
    exists (as_used (e k) (nth j ps 0) k). split; auto. apply in_map_iff. exists (k, ps). split; auto.
    clear - I Ip. revert kept pss I Ip. induction i; intros [|k0 ks] [|p0 pss] I Ip; try discriminate; cbn in *; [injection I as ->; injection Ip as ->; auto|right; eauto].
Qed.

Lemma scan_between bss a b t1 t2 c1 c2 a1 a2 b1 b2 p1 p2 : bss <> [] -> (1 <= nx)%nat -> (1 <= ny)%nat ->
  (forall k, In k (concat bss) -> panels_of k (a k) (b k)) ->
  let kept := filter all_numbers (concat bss) in
  let eff k := prob_two (a k) * prob_two (b k) in
  (forall k, In k kept -> poca_unc_ok k) -> (exists k, In k kept /\ 0 < eff k) ->
  0 < t1 -> 0 < p1 -> 0 <= a1 -> a2 <= PI -> 0 <= b1 -> b2 <= PI -> c1 = (cos a2 + cos b2) / 2 -> c2 = (cos a1 + cos b1) / 2 -> 0 < c1 ->
  (forall k, In k kept -> 0 < eff k -> t1 <= num (k_tot k) <= t2 /\ a1 <= num (k_in k) <= a2 /\ b1 <= num (k_out k) <= b2 /\ p1 <= num (k_mom k) <= p2) ->
  exists xs, interact g cdf panel_efficiency pu (scan bss) new_inf = [Ok (AVec (map Fin xs))] /\ List.length xs = (nx * ny * nz)%nat
  /\ Forall (fun x => x0_law s (t2 / sqrt 2) c2 p2 <= x <= x0_law s (t1 / sqrt 2) c1 p1) xs.
Proof.
  intros Nb Nx Ny Hp kept eff U Ex T P A1 A2 B1 B2 E1 E2 C B. assert (0 < s) as S0 by (destruct St; auto).
  assert (forall ms, In ms bss -> panel_efficiency (view ms) = Ok (map (fun k => Fin (eff k)) ms)) as He.
  { intros ms I. apply panel_eff_view. intros k Ik. destruct (Hp k) as (? & ? & ? & ? & _); [apply in_concat; eauto|auto]. }
  destruct (scan_preds bss eff Nb Nx Ny He U) as (pss & L & F & ->). fold kept in L |- *.
  assert (forall k, In k kept -> 0 <= eff k) as Pe.
  { intros k I. apply filter_In in I as [I _]. destruct (Hp k I) as (_ & _ & _ & _ & Fa & Fb). apply Rmult_le_pos; apply two_bounds; auto. }
  assert (forall j, In j (seq 0 (nx * ny * nz)) -> exists x, predicted s (used_at eff j (combine kept pss)) = Fin x /\ x0_law s (t2 / sqrt 2) c2 p2 <= x <= x0_law s (t1 / sqrt 2) c1 p1) as Q.
  { intros j Ij. apply in_seq in Ij. apply (voxel_between s _ t1 t2 c1 c2 a1 a2 b1 b2 p1 p2); auto; [apply used_at_useful; auto; lia|].
    intros u Iu. apply in_map_iff in Iu as ([k ps] & <- & Iu). apply in_combine_l in Iu. cbn [as_used w_eff w_tot w_in w_out w_mom fst snd]. auto. }
  assert (exists xs, map (fun j => predicted s (used_at eff j (combine kept pss))) (seq 0 (nx * ny * nz)) = map Fin xs /\ List.length xs = List.length (seq 0 (nx * ny * nz))
    /\ Forall (fun x => x0_law s (t2 / sqrt 2) c2 p2 <= x <= x0_law s (t1 / sqrt 2) c1 p1) xs) as (xs & -> & Lx & Fx).
  { clear - Q. induction (seq 0 (nx * ny * nz)) as [|j l IH]; [exists []; auto|]. destruct IH as (xs & E & L & F); [intros; apply Q; right; auto|].
    destruct (Q j (or_introl eq_refl)) as (x & Ex & Bx). exists (x :: xs). cbn [map]. rewrite Ex, E. split; auto. split; [simpl; auto|constructor; auto]. }
  exists xs. rewrite seq_length in Lx. split; auto. cbv zeta. assert (existsb xisnan (map Fin xs) = false) as ->; auto.
  clear. induction xs; auto.
Qed.
Lemma scan_nothing bss a b : bss <> [] -> (1 <= nx)%nat -> (1 <= ny)%nat ->
  (forall k, In k (concat bss) -> panels_of k (a k) (b k)) ->
  let kept := filter all_numbers (concat bss) in
  (forall k, In k kept -> poca_unc_ok k) -> (forall k, In k kept -> prob_two (a k) * prob_two (b k) = 0) ->
  interact g cdf panel_efficiency pu (scan bss) new_inf = [Err ValueError].
Proof.
  intros Nb Nx Ny Hp kept U Z.
  assert (forall ms, In ms bss -> panel_efficiency (view ms) = Ok (map (fun k => Fin (prob_two (a k) * prob_two (b k))) ms)) as He.
  { intros ms I. apply panel_eff_view. intros k Ik. destruct (Hp k) as (? & ? & ? & ? & _); [apply in_concat; eauto|auto]. }
  destruct (scan_preds bss (fun k => prob_two (a k) * prob_two (b k)) Nb Nx Ny He U) as (pss & L & F & ->). fold kept in L |- *. cbv zeta.
  assert (exists n, nx * ny * nz = S n)%nat as [n ->].
  { assert (0 < nz)%nat by (destruct St as (_ & _ & ? & _); auto). destruct nx, ny, nz; try lia. simpl. eauto. }
  cbn [seq map existsb]. rewrite voxel_nothing; [reflexivity|]. intros u Iu. apply in_map_iff in Iu as ([k ps] & <- & Iu). apply in_combine_l in Iu. cbn [as_used w_eff fst]. auto.
Qed.
End V.
(* a batch that cannot be read spoils all later predictions *)
Lemma bad_batch bs e : In (Err e) bs -> (forall e', In (Err e') bs -> e' = e) -> mapM (fun b : res sview => b) bs = Err e.
Proof.
  induction bs as [|[v|e'] bs IH]; intros I H; [destruct I|..].
  - cbn [mapM bind]. rewrite IH; [reflexivity|destruct I; [discriminate|auto]|intros; apply H; right; auto].
  - cbn [mapM bind]. f_equal. apply H. left; auto.
Qed.
Lemma combined_bad eff_of bs e : In (Err e) bs -> (forall e', In (Err e') bs -> e' = e) -> combined eff_of bs = Err e.
Proof. intros I H. unfold combined. destruct bs; [destruct I|]. rewrite (bad_batch _ e I H). reflexivity. Qed.
Lemma kept_reads g cdf eff_of pu e bss : bss <> [] -> (forall ms, In ms bss -> eff_of (view ms) = Ok (map e ms)) ->
  let kept := filter all_numbers (concat bss) in
  interact g cdf eff_of pu (map (fun ms => Add (Ok (view ms))) bss ++ map Ask [RVars; RUncs; REff; RN]) new_inf
  = [Ok (AMat (map k_vars kept)); Ok (AMat (map k_uncs kept)); Ok (AVec (map e kept)); Ok (AN (List.length kept))].
Proof.
  intros N H kept. rewrite <- (map_map (fun ms => Ok (view ms)) Add). rewrite asked_after by (apply (view_good _ e); auto).
  cbn [map known]. rewrite (combined_view _ e) by auto. reflexivity.
Qed.
Lemma empty_view zr unc_of sb mus : sb_tracks sb = [] -> view_of zr unc_of sb mus = Err TypeErr.
Proof. intro H. unfold view_of. rewrite H. reflexivity. Qed.
Lemma empty_spoils g cdf pu a b bss bss' : (forall k, In k (concat (bss ++ bss')) -> panels_of k (a k) (b k)) -> forall r, 
  interact g cdf panel_efficiency pu (map Add (map (fun ms => Ok (view ms)) bss ++ [Err TypeErr] ++ map (fun ms => Ok (view ms)) bss') ++ [Ask r]) new_inf = [Err TypeErr].
Proof.
  intros H r. change [Ask r] with (map Ask [r]). rewrite asked_after.
  - cbn [map]. f_equal. assert (forall e, In (Err e) (map (fun ms => Ok (view ms)) bss ++ [Err TypeErr] ++ map (fun ms => Ok (view ms)) bss') -> e = TypeErr) as Q.
    { intros e I. rewrite !in_app_iff, !in_map_iff in I. destruct I as [(? & ? & _)|[[I|[]]|(? & ? & _)]]; congruence. }
    assert (In (@Err sview TypeErr) (map (fun ms => Ok (view ms)) bss ++ [Err TypeErr] ++ map (fun ms => Ok (view ms)) bss')) as I by (rewrite !in_app_iff; simpl; auto).
    pose proof (combined_bad panel_efficiency _ TypeErr I Q) as C. destruct r; cbn [known]; rewrite ?C; try reflexivity.
    destruct (map _ bss ++ _) eqn:E; [destruct I|reflexivity].
  - intros v I. rewrite !in_app_iff, !in_map_iff in I.
    assert (exists ms, v = view ms /\ forall k, In k ms -> In k (concat (bss ++ bss'))) as (ms & -> & Hs).
    { destruct I as [(ms & E & I)|[[I|[]]|(ms & E & I)]]; try discriminate; injection E as <-; exists ms; split; auto; intros k Ik; apply in_concat; exists ms; split; auto; apply in_app_iff; auto. }
    exists (map (fun k => Fin (prob_two (a k) * prob_two (b k))) ms). split; [|cbn [view s_poca]; rewrite !map_length; reflexivity].
    apply panel_eff_view. intros k Ik. destruct (H k (Hs k Ik)) as (? & ? & ? & ? & _). auto.
Qed.
Lemma scan_exact ls s m nx ny nz g cdf pu bss a b tin tout p x0 :
  stack ls s m nx ny nz -> grid_of ls = Ok g -> is_cdf cdf -> bss <> [] -> (1 <= nx)%nat -> (1 <= ny)%nat ->
  (forall k, In k (concat bss) -> panels_of k (a k) (b k)) ->
  let kept := filter all_numbers (concat bss) in
  let eff k := prob_two (a k) * prob_two (b k) in
  (forall k, In k kept -> poca_unc_ok k) -> (exists k, In k kept /\ 0 < eff k) ->
  0 < p -> 0 < x0 -> 0 <= tin <= PI -> 0 <= tout <= PI -> 0 < cos tin + cos tout ->
  (forall k, In k kept -> 0 < eff k -> num (k_tot k) = sqrt 2 * leading_width p (s / ((cos tin + cos tout) / 2)) x0
     /\ num (k_in k) = tin /\ num (k_out k) = tout /\ num (k_mom k) = p) ->
  interact g cdf panel_efficiency pu (scan bss) new_inf = [Ok (AVec (repeat (Fin x0) (nx * ny * nz)))].
Proof.
  intros St Gr Cd Nb Nx Ny Hp kept eff U Ex P X A B C H. assert (0 < s) as S0 by (destruct St; auto).
  set (c := (cos tin + cos tout) / 2). assert (0 < c) as C0 by (unfold c; lra).
  set (w := leading_width p (s / c) x0). assert (0 < w) as W0.
  { unfold w, leading_width. apply Rmult_lt_0_compat; [apply Rdiv_lt_0_compat; lra|]. apply sqrt_lt_R0. repeat apply Rdiv_lt_0_compat; lra. }
  assert (0 < sqrt 2) as Q by (apply sqrt_lt_R0; lra).
  destruct (scan_between ls s m nx ny nz g cdf pu St Gr Cd bss a b (sqrt 2 * w) (sqrt 2 * w) c c tin tin tout tout p p) as (xs & E & L & F);
    auto; try lra; [apply Rmult_lt_0_compat; lra| |].
  { fold kept eff. intros k I Pk. destruct (H k I Pk) as (-> & -> & -> & ->). unfold w, c. lra. }
  rewrite E. do 3 f_equal. rewrite <- L. clear E L. induction F as [|x xs Fx F IH]; [reflexivity|]. cbn [map List.length repeat]. rewrite IH. f_equal. f_equal.
  replace (sqrt 2 * w / sqrt 2) with w in Fx by (field; lra). unfold w in Fx. rewrite law_inverts in Fx by lra. lra.
Qed.
Lemma reads_fresh_panels g cdf pu ops : (forall v, In (Add (Ok v)) ops -> exists ms a b, v = view ms /\ forall k, In k ms -> panels_of k (a k) (b k)) ->
  interact g cdf panel_efficiency pu ops new_inf = map (fun q => fst (ask g cdf panel_efficiency pu (snd q) (given (fst q)))) (questions ops []).
Proof.
  intro H. apply reads_fresh. intros v I. destruct (H v I) as (ms & a & b & -> & Hk). eexists. split.
  - apply (panel_eff_view ms a b). intros k Ik. destruct (Hk k Ik) as (? & ? & ? & ? & _). auto.
  - cbn [view s_poca]. rewrite !map_length. reflexivity.
Qed.
