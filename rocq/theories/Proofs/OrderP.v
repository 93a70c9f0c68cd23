(* Predictions do not depend on the order of the muons nor on the batches they came in. *)
From Coq Require Import Psatz Lia ZArith Permutation.
From Verif Require Import Model.X0Infer Spec.VolumeSpec Spec.InferSpec Proofs.EffP Proofs.InferStateP Proofs.CombineP.
Open Scope R_scope.
Open Scope list_scope.

Lemma xadd_swap a b c : xadd a (xadd b c) = xadd b (xadd a c).
Proof. destruct a, b, c; cbn; try reflexivity; f_equal; ring. Qed.
Lemma xsum_perm l l' : Permutation l l' -> xsum l = xsum l'.
Proof. induction 1; cbn [xsum fold_right]; try congruence; [f_equal; assumption|apply xadd_swap]. Qed.
Lemma map2_map {A B C D} (f : B -> C -> D) (g : A -> B) (h : A -> C) l : map2 f (map g l) (map h l) = map (fun x => f (g x) (h x)) l.
Proof. induction l as [|a l IH]; [reflexivity|]. cbn. now rewrite IH. Qed.
Lemma wrms_perm {A} (f h : A -> xr) l l' : Permutation l l' -> weighted_rms (map f l) (map h l) = weighted_rms (map f l') (map h l').
Proof.
  intros P. unfold weighted_rms. rewrite !map2_map. rewrite (xsum_perm _ _ (Permutation_map h P)). do 2 f_equal.
  apply xsum_perm. now apply (Permutation_map (fun x => xmul (xsquare (f x)) (h x))).
Qed.
Lemma forallb_perm {A} (f : A -> bool) l l' : Permutation l l' -> forallb f l = forallb f l'.
Proof. induction 1; cbn; try congruence. destruct (f x), (f y); reflexivity. Qed.

(* one muon for one voxel *)
Definition quad : Type := list xr * list xr * xr * xr.
Definition q_v (q : quad) := fst (fst (fst q)).
Definition q_u (q : quad) := snd (fst (fst q)).
Definition q_e (q : quad) := snd (fst q).
Definition q_p (q : quad) := snd q.
Lemma voxel_x0_perm dz l l' : Permutation l l' ->
  voxel_x0 dz (map q_v l) (map q_u l) (map q_e l) (map q_p l) = voxel_x0 dz (map q_v l') (map q_u l') (map q_e l') (map q_p l').
Proof.
  intros P. unfold voxel_x0, var_weights, col. cbv zeta. rewrite ?map_map, ?map2_map.
  rewrite (forallb_perm _ _ _ (Permutation_map (fun x => sq_var (nth 6 (q_v x) NaN) (nth 6 (q_u x) NaN)) P)).
  f_equal; [f_equal| | |]; try (apply wrms_perm; exact P).
  destruct (forallb _ _); rewrite ?map_map, !map2_map; apply wrms_perm; exact P.
Qed.

Lemma perm_mapM {A B} (f : A -> res B) e l l' : (forall a e', f a = Err e' -> e' = e) -> Permutation l l' ->
  (mapM f l = Err e /\ mapM f l' = Err e) \/ exists r r', mapM f l = Ok r /\ mapM f l' = Ok r' /\ Permutation (combine l r) (combine l' r') /\ length r = length l /\ length r' = length l'.
Proof.
  intros He P. induction P as [|a l l' P IH|a b l|l l' l'' P1 IH1 P2 IH2].
  - right. exists [], []. repeat split; constructor.
  - cbn [mapM]. destruct (f a) as [y|e'] eqn:Ea; [|left; rewrite (He _ _ Ea); split; reflexivity]. cbn [bind].
    destruct IH as [[-> ->]|(r & r' & -> & -> & Q & L & L')]; [left; split; reflexivity|]. right. exists (y :: r), (y :: r'). cbn [bind combine length].
    repeat split; auto.
  - cbn [mapM]. destruct (f a) as [y|e'] eqn:Ea, (f b) as [z|e''] eqn:Eb; cbn [bind];
      try (rewrite ?(He _ _ Ea), ?(He _ _ Eb); left; split; reflexivity).
    destruct (mapM f l) as [r|e'] eqn:El; cbn [bind].
    + right. exists (z :: y :: r), (y :: z :: r). cbn [combine length]. assert (Lr : length r = length l).
      { clear - El. revert r El. induction l as [|x l IH]; intros r El; cbn [mapM] in El; [injection El as <-; reflexivity|].
        destruct (f x); [|discriminate]. cbn [bind] in El. destruct (mapM f l); [|discriminate]. cbn [bind] in El. injection El as <-. cbn. f_equal. now apply IH. }
      repeat split; auto. apply perm_swap.
    + left. assert (e' = e) as ->; [|split; reflexivity]. clear - El He. revert El. induction l as [|x l IH]; intros El; cbn [mapM] in El; [discriminate|].
      destruct (f x) eqn:Ex; [|injection El as ->; eauto]. cbn [bind] in El. destruct (mapM f l); [discriminate|]. cbn [bind] in El. injection El as ->. auto.
  - destruct IH1 as [[E1 E2]|(r & r' & E1 & E2 & Q & L & L')]; destruct IH2 as [[E3 E4]|(s & s' & E3 & E4 & Q' & M & M')]; rewrite E2 in E3; try discriminate; [left; auto|].
    injection E3 as <-. right. exists r, s'. repeat split; auto. now transitivity (combine l' r').
Qed.

Lemma side_ok effs : (2 <= length effs)%nat -> exists x, side_eff effs = Ok x.
Proof. intros H. destruct effs as [|a [|b l]]; cbn in H; try lia. eexists. reflexivity. Qed.
Definition effic (k : smuon) : xr := match muon_eff (k_above k) (k_below k) with Ok x => x | Err _ => NaN end.
Lemma effic_view ms : (forall k, In k ms -> (2 <= length (k_above k))%nat /\ (2 <= length (k_below k))%nat) -> panel_efficiency (view ms) = Ok (map effic ms).
Proof.
  unfold panel_efficiency. cbn [s_above s_below view]. induction ms as [|m ms IH]; intro H; [reflexivity|]. cbn [map combine mapM fst snd].
  destruct (H m (or_introl eq_refl)) as [Ha Hb]. assert (Em : exists z, muon_eff (k_above m) (k_below m) = Ok z) by (unfold muon_eff; destruct (side_ok _ Ha) as [x ->], (side_ok _ Hb) as [y ->]; cbn [bind]; eauto).
  destruct Em as [z Em]. unfold effic at 1. rewrite Em. cbn [bind].
  rewrite IH by (intros; apply H; right; auto). reflexivity.
Qed.
Lemma kept_perm {A} (f : A -> bool) l l' : Permutation l l' -> Permutation (filter f l) (filter f l').
Proof.
  induction 1 as [|a l l' P IH|a b l|l l' l'' P1 IH1 P2 IH2]; cbn; auto; [destruct (f a); auto|destruct (f a), (f b); auto; constructor|now transitivity (filter f l')].
Qed.
Lemma probs_err cdf g v u e : muon_probs cdf g v u = Err e -> e = ValueError.
Proof. unfold muon_probs. destruct (three v), (three u); try (intros [= <-]; reflexivity). destruct (scales_ok _); [discriminate|]. intros [= <-]. reflexivity. Qed.

(* every muon twice *)
Lemma xsum_app2 l l' : xsum (l ++ l') = xadd (xsum l) (xsum l').
Proof.
  induction l as [|a l IH]; cbn [app xsum fold_right].
  - change (xsum l' = xadd (Fin 0) (xsum l')). destruct (xsum l'); cbn; try reflexivity. f_equal. ring.
  - change (xadd a (xsum (l ++ l')) = xadd (xadd a (xsum l)) (xsum l')). rewrite IH. destruct a, (xsum l), (xsum l'); cbn; try reflexivity. f_equal. ring.
Qed.
Lemma xdiv_double a b : xdiv (xadd a a) (xadd b b) = xdiv a b.
Proof.
  destruct a as [x| | |], b as [y| | |]; cbn; try reflexivity.
  - destruct (Req_EM_T y 0) as [->|N].
    + destruct (Req_EM_T (0 + 0) 0) as [_|N]; [|exfalso; apply N; ring]. unfold inf_of_sign. destruct (Rlt_dec 0 (x + x)), (Rlt_dec 0 x); try lra; try reflexivity. destruct (Rlt_dec (x + x) 0), (Rlt_dec x 0); try lra; reflexivity.
    + destruct (Req_EM_T (y + y) 0) as [E|N2]; [lra|]. f_equal. field. split; lra.
  - destruct (Rlt_dec (y + y) 0), (Rlt_dec y 0); try lra; reflexivity.
  - destruct (Rlt_dec (y + y) 0), (Rlt_dec y 0); try lra; reflexivity.
Qed.
Lemma wrms_twice {A} (f h : A -> xr) l : weighted_rms (map f (l ++ l)) (map h (l ++ l)) = weighted_rms (map f l) (map h l).
Proof. unfold weighted_rms. rewrite !map2_map, !map_app, !xsum_app2, xdiv_double. reflexivity. Qed.
Lemma voxel_x0_twice dz l :
  voxel_x0 dz (map q_v (l ++ l)) (map q_u (l ++ l)) (map q_e (l ++ l)) (map q_p (l ++ l)) = voxel_x0 dz (map q_v l) (map q_u l) (map q_e l) (map q_p l).
Proof.
  unfold voxel_x0, var_weights, col. cbv zeta. rewrite ?map_map, ?map2_map.
  replace (forallb (fun v => xeq v (Fin 0)) (map (fun x => sq_var (nth 6 (q_v x) NaN) (nth 6 (q_u x) NaN)) (l ++ l)))
    with (forallb (fun v => xeq v (Fin 0)) (map (fun x => sq_var (nth 6 (q_v x) NaN) (nth 6 (q_u x) NaN)) l)) by (rewrite map_app, forallb_app; now destruct (forallb _ _)).
  f_equal; [f_equal| | |]; try apply wrms_twice. destruct (forallb _ _); rewrite ?map_map, !map2_map; apply wrms_twice.
Qed.
Lemma mapM_app {A B} (f : A -> res B) l l' : mapM f (l ++ l') = (r <- mapM f l ;; r' <- mapM f l' ;; Ok (r ++ r')).
Proof.
  induction l as [|a l IH]; cbn [app mapM].
  - cbn [bind app]. now destruct (mapM f l').
  - destruct (f a); cbn [bind]; [|reflexivity]. rewrite IH. destruct (mapM f l); cbn [bind]; [|reflexivity]. destruct (mapM f l'); reflexivity.
Qed.
Lemma combine_app {A B} (l l' : list A) (r r' : list B) : length r = length l -> combine (l ++ l') (r ++ r') = combine l r ++ combine l' r'.
Proof. revert r. induction l as [|a l IH]; intros [|b r] H; try discriminate; [reflexivity|]. cbn. f_equal. apply IH. now injection H. Qed.
Lemma shape_twice g n : shape_ok g (n + n) (n + n) = shape_ok g n n.
Proof.
  unfold shape_ok. destruct (negb _); [|reflexivity]. cbn [andb]. set (e := length (g_edges g)). set (v := (g_nx g * g_ny g * g_nz g)%nat).
  destruct (Nat.eqb_spec (n * e) (n * v)), (Nat.eqb_spec ((n + n) * e) ((n + n) * v)); lia.
Qed.

Section O.
Variables (g : grid) (cdf : R -> R -> R -> R) (pu : list xr -> tensor2 -> tensor2 -> list xr).
(* the answer as a function of the muons kept *)
Definition answer (kept : list smuon) : res ians :=
  P <- pprobs g cdf (map k_vars kept, map k_uncs kept, map effic kept, length kept) ;;
  X <- ppreds g (map k_vars kept, map k_uncs kept, map effic kept, length kept) P ;; Ok (AVec X).
Lemma scan_answer bss : bss <> [] -> (forall k, In k (concat bss) -> (2 <= length (k_above k))%nat /\ (2 <= length (k_below k))%nat) ->
  interact g cdf panel_efficiency pu (scan bss) new_inf = [answer (filter all_numbers (concat bss))].
Proof.
  intros Nb H. assert (He : forall ms, In ms bss -> panel_efficiency (view ms) = Ok (map effic ms)).
  { intros ms I. apply effic_view. intros k Ik. apply H. apply in_concat. eauto. }
  unfold scan. rewrite <- (map_map (fun ms => Ok (view ms)) Add). change [Ask RPrediction] with (map Ask [RPrediction]).
  rewrite asked_after by (apply (view_good _ effic); auto). cbn [map]. f_equal. cbn [known].
  destruct (map (fun ms => Ok (view ms)) bss) as [|b0 bs0] eqn:Eb; [destruct bss; [congruence|discriminate]|]. rewrite <- Eb. clear Eb b0 bs0.
  rewrite (combined_view _ effic) by auto. reflexivity.
Qed.
Lemma answer_perm kept kept' : Permutation kept kept' -> answer kept = answer kept'.
Proof.
  intros P. unfold answer, pprobs, ppreds. pose proof (Permutation_length P) as Len. rewrite !map_length, !Nat.eqb_refl.
  set (f := fun k => muon_probs cdf g (k_vars k) (k_uncs k)).
  assert (Q : forall l, mapM (fun vu => muon_probs cdf g (fst vu) (snd vu)) (combine (map k_vars l) (map k_uncs l)) = mapM f l).
  { induction l as [|k l IH]; [reflexivity|]. cbn [map combine mapM fst snd]. now rewrite IH. }
  rewrite !Q. destruct (perm_mapM f ValueError kept kept') as [[-> ->]|(r & r' & -> & -> & PC & L & L')]; [intros k e; apply probs_err|exact P|reflexivity|].
  cbn [bind]. rewrite L, L', <- Len. destruct (shape_ok _ _ _); [|reflexivity]. cbn [bind].
  assert (E : voxel_preds g (map k_vars kept) (map k_uncs kept) (map effic kept) r = voxel_preds g (map k_vars kept') (map k_uncs kept') (map effic kept') r').
  2: { now rewrite E. }
  unfold voxel_preds.
  assert (EV : forall j, voxel_x0 (g_size g) (map k_vars kept) (map k_uncs kept) (map effic kept) (map (fun p => nth j p NaN) r)
             = voxel_x0 (g_size g) (map k_vars kept') (map k_uncs kept') (map effic kept') (map (fun p => nth j p NaN) r')).
  { intros j. set (qd := fun kp : smuon * list xr => (k_vars (fst kp), k_uncs (fst kp), effic (fst kp), nth j (snd kp) NaN) : quad).
    assert (G : forall ks ps, length ps = length ks -> map q_v (map qd (combine ks ps)) = map k_vars ks /\ map q_u (map qd (combine ks ps)) = map k_uncs ks
      /\ map q_e (map qd (combine ks ps)) = map effic ks /\ map q_p (map qd (combine ks ps)) = map (fun p => nth j p NaN) ps).
    { clear. induction ks as [|k ks IH]; intros [|p ps] H; try discriminate; [repeat split|]. destruct (IH ps) as (A & B & C & D); [now injection H|].
      cbn [combine map]. rewrite A, B, C, D. repeat split. }
    destruct (G kept r L) as (<- & <- & <- & <-). destruct (G kept' r' L') as (<- & <- & <- & <-). apply voxel_x0_perm. now apply Permutation_map. }
  rewrite (map_ext _ _ EV). reflexivity.
Qed.
Lemma answer_twice kept : answer (kept ++ kept) = answer kept.
Proof.
  unfold answer, pprobs, ppreds. rewrite !map_length, !Nat.eqb_refl.
  set (f := fun k => muon_probs cdf g (k_vars k) (k_uncs k)).
  assert (Q : forall l, mapM (fun vu => muon_probs cdf g (fst vu) (snd vu)) (combine (map k_vars l) (map k_uncs l)) = mapM f l).
  { induction l as [|k l IH]; [reflexivity|]. cbn [map combine mapM fst snd]. now rewrite IH. }
  rewrite !Q, mapM_app. destruct (perm_mapM f ValueError kept kept) as [[E _]|(r & _ & E & _ & _ & L & _)]; [intros k e; apply probs_err|reflexivity| |]; rewrite E; [reflexivity|].
  cbn [bind]. rewrite !app_length, L, shape_twice. destruct (shape_ok _ _ _); [|reflexivity]. cbn [bind].
  assert (E2 : voxel_preds g (map k_vars (kept ++ kept)) (map k_uncs (kept ++ kept)) (map effic (kept ++ kept)) (r ++ r) = voxel_preds g (map k_vars kept) (map k_uncs kept) (map effic kept) r).
  2: { now rewrite E2. }
  unfold voxel_preds.
  assert (EV : forall j, voxel_x0 (g_size g) (map k_vars (kept ++ kept)) (map k_uncs (kept ++ kept)) (map effic (kept ++ kept)) (map (fun p => nth j p NaN) (r ++ r))
             = voxel_x0 (g_size g) (map k_vars kept) (map k_uncs kept) (map effic kept) (map (fun p => nth j p NaN) r)).
  { intros j. set (qd := fun kp : smuon * list xr => (k_vars (fst kp), k_uncs (fst kp), effic (fst kp), nth j (snd kp) NaN) : quad).
    assert (G : forall ks ps, length ps = length ks -> map q_v (map qd (combine ks ps)) = map k_vars ks /\ map q_u (map qd (combine ks ps)) = map k_uncs ks
      /\ map q_e (map qd (combine ks ps)) = map effic ks /\ map q_p (map qd (combine ks ps)) = map (fun p => nth j p NaN) ps).
    { clear. induction ks as [|k ks IH]; intros [|p ps] H; try discriminate; [repeat split|]. destruct (IH ps) as (A & B & C & D); [now injection H|].
      cbn [combine map]. rewrite A, B, C, D. repeat split. }
    destruct (G (kept ++ kept) (r ++ r)) as (<- & <- & <- & <-); [rewrite !app_length; lia|]. destruct (G kept r L) as (<- & <- & <- & <-).
    rewrite combine_app by exact L. rewrite map_app. apply voxel_x0_twice. }
  rewrite (map_ext _ _ EV). reflexivity.
Qed.
End O.
