(* C05, C08. *)
From Verif Require Import Base.Trig Model.MuonBatch Spec.MuonSpec Spec.AngleSpec Spec.TileSpec
  Proofs.MuonBatchP Proofs.MuonConserve Proofs.MuonAngles.
From Coq Require Import Psatz.
Open Scope R_scope.
Open Scope list_scope.

Definition gone_dz (c : go_case) : muon := if g_sel c then along c (g_d c / cos (g_th c)) else g_mu c.
Definition gone_d (c : go_case) : muon := if g_sel c then along c (g_d c) else g_mu c.

Lemma go_dz1_along c : cos (g_th c) <> 0 -> go_dz1 (Fin (g_d c)) (g_mu c) = along c (g_d c / cos (g_th c)).
Proof.
  intro Hc. unfold go_dz1, g_mu, along, dir. cbn [mth mph mx my mz mp xcos xfun xsin].
  change (xcos (Fin (g_th c))) with (Fin (cos (g_th c))). rewrite xdiv_fin by auto.
  unfold xcos, xsin, xsub; cbn [xfun xmul xadd xopp].
  assert (g_z c + - g_d c = g_z c + g_d c / cos (g_th c) * - cos (g_th c)) as -> by (field; auto).
  f_equal; f_equal; field; auto.
Qed.
Lemma go_d1_along c : go_d1 (Fin (g_d c)) (g_mu c) = along c (g_d c).
Proof.
  unfold go_d1, g_mu, along, dir. unfold xcos, xsin, xsub; cbn [mth mph mx my mz mp xfun xmul xadd xopp].
  f_equal; f_equal; ring.
Qed.

Lemma propagate_dz_cases {H} cs r h hi :
  (forall c, In c cs -> g_sel c = true -> cos (g_th c) <> 0) ->
  propagate_dz (H := H) (g_arg cs) (Some (map g_sel cs)) (Batch (map g_mu cs) r h hi)
  = Ok (Batch (map gone_dz cs) r h hi).
Proof.
  intro Hc. unfold propagate_dz. cbn [b_muons mask_or_ones].
  pose proof (go_dz_spec (map g_mu cs) (Some (map g_sel cs))) as T.
  specialize (T ltac:(simpl; rewrite !map_length, Nat.eqb_refl; auto)).
  specialize (T (SEach (map (fun c => Fin (g_d c)) cs)) ltac:(simpl; rewrite !map_length, Nat.eqb_refl; auto)).
  rewrite call_vec in T. cbn [mask_or_ones] in T.
  change (Vec (map (fun c => Fin (g_d c)) (filter g_sel cs))) with (g_arg cs) in T.
  rewrite T. cbn [bind]. f_equal. unfold with_muons. cbn [b_removed b_hits b_hist]. f_equal.
  rewrite (upd_cases g_sel g_mu _ gone_dz); auto.
  intros i c E. unfold gone_dz. destruct (g_sel c) eqn:Es; auto.
  cbn [at_i]. rewrite (nth_map_some _ _ _ _ _ E). symmetry. apply go_dz1_along. apply Hc; auto.
  eapply nth_error_In; eauto.
Qed.
Lemma propagate_d_cases {H} cs r h hi :
  propagate_d (H := H) (g_arg cs) (Some (map g_sel cs)) (Batch (map g_mu cs) r h hi)
  = Ok (Batch (map gone_d cs) r h hi).
Proof.
  unfold propagate_d. cbn [b_muons mask_or_ones].
  pose proof (go_d_spec (map g_mu cs) (Some (map g_sel cs))) as T.
  specialize (T ltac:(simpl; rewrite !map_length, Nat.eqb_refl; auto)).
  specialize (T (SEach (map (fun c => Fin (g_d c)) cs)) ltac:(simpl; rewrite !map_length, Nat.eqb_refl; auto)).
  rewrite call_vec in T. cbn [mask_or_ones] in T.
  change (Vec (map (fun c => Fin (g_d c)) (filter g_sel cs))) with (g_arg cs) in T.
  rewrite T. cbn [bind]. f_equal. unfold with_muons. cbn [b_removed b_hits b_hist]. f_equal.
  rewrite (upd_cases g_sel g_mu _ gone_d); auto.
  intros i c E. unfold gone_d. destruct (g_sel c) eqn:Es; auto.
  cbn [at_i]. rewrite (nth_map_some _ _ _ _ _ E). symmetry. apply go_d1_along.
Qed.

(* the z of the point reached by propagate_dz *)
Lemma along_dz_z c : cos (g_th c) <> 0 -> mz (along c (g_d c / cos (g_th c))) = Fin (g_z c - g_d c).
Proof. intro Hc. unfold along, dir; cbn. f_equal. field; auto. Qed.

(* two steps are one step *)
Definition step_from (c : go_case) (s : R) (d2 : R) : go_case :=
  let '(dx, dy, dz) := dir (g_th c) (g_ph c) in
  GC (g_sel c) (g_x c + s * dx) (g_y c + s * dy) (g_z c + s * dz) (g_p c) (g_th c) (g_ph c) d2.

Lemma propagate_dz_twice {H} (cs : list (go_case * R)) r h hi :
  (forall c e, In (c, e) cs -> g_sel c = true -> cos (g_th c) <> 0) ->
  (b1 <- propagate_dz (H := H) (g_arg (map fst cs)) (Some (map g_sel (map fst cs))) (Batch (map g_mu (map fst cs)) r h hi) ;;
   propagate_dz (Vec (map (fun q => Fin (snd q)) (filter (fun q => g_sel (fst q)) cs))) (Some (map g_sel (map fst cs))) b1)
  = propagate_dz (g_arg (map (fun q => with_d (fst q) (g_d (fst q) + snd q)) cs)) (Some (map g_sel (map fst cs)))
      (Batch (map g_mu (map fst cs)) r h hi).
Proof.
  intro Hc.
  set (cs1 := map fst cs).
  set (cs2 := map (fun q => if g_sel (fst q) then step_from (fst q) (g_d (fst q) / cos (g_th (fst q))) (snd q)
                            else with_d (fst q) (snd q)) cs).
  set (cs3 := map (fun q => with_d (fst q) (g_d (fst q) + snd q)) cs).
  rewrite propagate_dz_cases.
  2:{ intros c Hin. unfold cs1 in Hin. apply in_map_iff in Hin as [[c' e] [<- Hin]]. eapply Hc; eauto. }
  cbn [bind].
  assert (map g_sel cs1 = map g_sel cs2) as S2.
  { unfold cs1, cs2. rewrite !map_map. apply map_ext. intros [c e]; cbn. destruct (g_sel c) eqn:Es; cbn; auto. }
  assert (map g_sel cs1 = map g_sel cs3) as S3.
  { unfold cs1, cs3. rewrite !map_map. apply map_ext. intros [c e]; reflexivity. }
  assert (map gone_dz cs1 = map g_mu cs2) as M2.
  { unfold cs1, cs2. rewrite !map_map. apply map_ext. intros [c e]; cbn [fst snd]. unfold gone_dz.
    destruct (g_sel c); reflexivity. }
  assert (map g_mu cs1 = map g_mu cs3) as M3.
  { unfold cs1, cs3. rewrite !map_map. apply map_ext. intros [c e]; reflexivity. }
  assert (Vec (map (fun q : go_case * R => Fin (snd q)) (filter (fun q => g_sel (fst q)) cs)) = g_arg cs2) as A2.
  { unfold g_arg, cs2. f_equal. clear. induction cs as [|[c e] cs IH]; simpl; auto.
    destruct (g_sel c) eqn:Es; simpl; rewrite ?Es; simpl; rewrite IH; auto. }
  fold cs3. rewrite A2, M2, M3, S2 at 1. rewrite S3.
  assert (forall c, In c cs2 -> g_sel c = true -> cos (g_th c) <> 0) as Hc2.
  { intros c Hin Hs. unfold cs2 in Hin. apply in_map_iff in Hin as [[c' e] [<- Hin]]. cbn [fst snd] in *.
    destruct (g_sel c') eqn:Es.
    - cbn. eapply Hc; eauto.
    - cbn in Hs. congruence. }
  assert (forall c, In c cs3 -> g_sel c = true -> cos (g_th c) <> 0) as Hc3.
  { intros c Hin Hs. unfold cs3 in Hin. apply in_map_iff in Hin as [[c' e] [<- Hin]]. cbn in *. eapply Hc; eauto. }
  rewrite propagate_dz_cases by auto. rewrite propagate_dz_cases by auto. f_equal. f_equal.
  unfold cs2, cs3. rewrite !map_map. apply map_ext_in. intros [c e] Hin. cbn [fst snd]. unfold gone_dz.
  destruct (g_sel c) eqn:Es.
  - cbn. rewrite Es. unfold along, step_from, dir, with_d; cbn.
    assert (cos (g_th c) <> 0) as Hcc by (eapply Hc; eauto).
    f_equal; f_equal; field; auto.
  - cbn. rewrite Es. reflexivity.
Qed.

Lemma propagate_d_twice {H} (cs : list (go_case * R)) r h hi :
  (b1 <- propagate_d (H := H) (g_arg (map fst cs)) (Some (map g_sel (map fst cs))) (Batch (map g_mu (map fst cs)) r h hi) ;;
   propagate_d (Vec (map (fun q => Fin (snd q)) (filter (fun q => g_sel (fst q)) cs))) (Some (map g_sel (map fst cs))) b1)
  = propagate_d (g_arg (map (fun q => with_d (fst q) (g_d (fst q) + snd q)) cs)) (Some (map g_sel (map fst cs)))
      (Batch (map g_mu (map fst cs)) r h hi).
Proof.
  set (cs1 := map fst cs).
  set (cs2 := map (fun q => if g_sel (fst q) then step_from (fst q) (g_d (fst q)) (snd q)
                            else with_d (fst q) (snd q)) cs).
  set (cs3 := map (fun q => with_d (fst q) (g_d (fst q) + snd q)) cs).
  rewrite propagate_d_cases. cbn [bind].
  assert (map g_sel cs1 = map g_sel cs2) as S2.
  { unfold cs1, cs2. rewrite !map_map. apply map_ext. intros [c e]; cbn. destruct (g_sel c) eqn:Es; cbn; auto. }
  assert (map g_sel cs1 = map g_sel cs3) as S3.
  { unfold cs1, cs3. rewrite !map_map. apply map_ext. intros [c e]; reflexivity. }
  assert (map gone_d cs1 = map g_mu cs2) as M2.
  { unfold cs1, cs2. rewrite !map_map. apply map_ext. intros [c e]; cbn [fst snd]. unfold gone_d.
    destruct (g_sel c); reflexivity. }
  assert (map g_mu cs1 = map g_mu cs3) as M3.
  { unfold cs1, cs3. rewrite !map_map. apply map_ext. intros [c e]; reflexivity. }
  assert (Vec (map (fun q : go_case * R => Fin (snd q)) (filter (fun q => g_sel (fst q)) cs)) = g_arg cs2) as A2.
  { unfold g_arg, cs2. f_equal. clear. induction cs as [|[c e] cs IH]; simpl; auto.
    destruct (g_sel c) eqn:Es; simpl; rewrite ?Es; simpl; rewrite IH; auto. }
  fold cs3. rewrite A2, M2, M3, S2 at 1. rewrite S3.
  rewrite propagate_d_cases. rewrite propagate_d_cases. f_equal. f_equal.
  unfold cs2, cs3. rewrite !map_map. apply map_ext. intros [c e]. cbn [fst snd]. unfold gone_d.
  destruct (g_sel c) eqn:Es.
  - cbn. rewrite Es. unfold along, step_from, dir, with_d; cbn. f_equal; f_equal; ring.
  - cbn. rewrite Es. reflexivity.
Qed.

Lemma propagate_d_is_dz {H} cs r h hi :
  (forall c, In c cs -> g_sel c = true -> cos (g_th c) <> 0) ->
  propagate_d (H := H) (g_arg cs) (Some (map g_sel cs)) (Batch (map g_mu cs) r h hi)
  = propagate_dz (g_arg (map (fun c => with_d c (g_d c * cos (g_th c))) cs)) (Some (map g_sel cs))
      (Batch (map g_mu cs) r h hi).
Proof.
  intro Hc. set (cs' := map (fun c => with_d c (g_d c * cos (g_th c))) cs).
  rewrite propagate_d_cases.
  assert (map g_sel cs = map g_sel cs') as -> by (unfold cs'; rewrite map_map; reflexivity).
  assert (map g_mu cs = map g_mu cs') as -> by (unfold cs'; rewrite map_map; reflexivity).
  rewrite propagate_dz_cases.
  - f_equal. f_equal. unfold cs'. rewrite map_map. apply map_ext_in. intros c Hin.
    unfold gone_d, gone_dz, with_d; cbn. destruct (g_sel c) eqn:Es; auto.
    unfold along, dir; cbn. pose proof (Hc c Hin Es). f_equal; f_equal; field; auto.
  - intros c Hin. unfold cs' in Hin. apply in_map_iff in Hin as [c' [<- Hin]]. cbn. auto.
Qed.

(* ---------- tiling (C08) ---------- *)
Lemma xlt_le_trans a b c : xlt a b = true -> xle b c = true -> xlt a c = true.
Proof.
  destruct a, b, c; simpl; auto; try discriminate. rewrite !Rltb_true, Rleb_true. lra.
Qed.
Lemma xle_lt_trans a b c : xle a b = true -> xlt b c = true -> xlt a c = true.
Proof.
  destruct a, b, c; simpl; auto; try discriminate. rewrite !Rltb_true, Rleb_true. lra.
Qed.
Lemma xlt_le a b : xlt a b = true -> xle a b = true.
Proof. destruct a, b; simpl; auto. rewrite Rltb_true, Rleb_true. lra. Qed.
Lemma xle_xlt_false a x : xle a x = true -> xlt x a = false.
Proof. destruct a, x; simpl; auto. rewrite Rleb_true, Rltb_false. auto. Qed.
Lemma xnlt_le b l a x : xlt b l = true -> xle a x = true -> xlt x b = false -> xle b x = true.
Proof. destruct a, b, x, l; simpl; auto; try discriminate; rewrite ?Rltb_false, ?Rltb_true, ?Rleb_true; auto. Qed.
Lemma xlt_trans a b c : xlt a b = true -> xlt b c = true -> xlt a c = true.
Proof. destruct a, b, c; simpl; auto; try discriminate. rewrite !Rltb_true. lra. Qed.

Definition inside (x : xr) (c : xr * xr) : bool := xle (fst c) x && xlt x (snd c).

Lemma intervals_cons a b e : intervals (a :: b :: e) = (a, b) :: intervals (b :: e).
Proof. reflexivity. Qed.

Lemma last_cons2 (a b : xr) (e : list xr) d : last (a :: b :: e) d = last (b :: e) d.
Proof. reflexivity. Qed.

Lemma increasing_le_last (a : xr) e d : increasing (a :: e) -> e <> [] -> xlt a (last (a :: e) d) = true.
Proof.
  revert a. induction e as [|b e IH]; intros a Hi Hn; [congruence|].
  destruct Hi as [H1 H2]. destruct e as [|c e].
  - simpl; auto.
  - rewrite last_cons2. eapply xlt_trans; [exact H1|]. apply IH; auto; congruence.
Qed.

Lemma count_intervals (x : xr) e d : increasing e -> (2 <= len e)%nat ->
  count_true (map (inside x) (intervals e)) = if xle (hd d e) x && xlt x (last e d) then 1%nat else 0%nat.
Proof.
  revert x. induction e as [|a e IH]; intros x Hi Hl; [simpl in Hl; lia|].
  destruct e as [|b e]; [simpl in Hl; lia|].
  rewrite intervals_cons, last_cons2. cbn [map count_true hd]. destruct Hi as [Hab Hi].
  destruct e as [|c e].
  - cbn. unfold inside; cbn. rewrite Nat.add_0_r. auto.
  - rewrite IH by (auto; simpl; lia). cbn [hd].
    pose proof (increasing_le_last b (c :: e) d Hi ltac:(congruence)) as Hbl.
    unfold inside at 1; cbn [fst snd].
    destruct (xle a x) eqn:E1; cbn [andb].
    + destruct (xlt x b) eqn:E2; cbn [andb].
      * rewrite (xlt_trans _ _ _ E2 Hbl). destruct (xle b x) eqn:E3; cbn [andb]; auto.
        rewrite (xle_xlt_false _ _ E3) in E2; discriminate.
      * rewrite (xnlt_le _ _ _ _ Hbl E1 E2). reflexivity.
    + destruct (xle b x) eqn:E3; cbn [andb]; auto.
      rewrite (xlt_le _ _ (xlt_le_trans _ _ _ Hab E3)) in E1. discriminate.
Qed.

Lemma count_prod {A B} (p : A -> bool) (q : B -> bool) l l' :
  count_true (map (fun c => p (fst c) && q (snd c)) (list_prod l l'))
  = (count_true (map p l) * count_true (map q l'))%nat.
Proof.
  assert (forall m m', count_true (m ++ m') = (count_true m + count_true m')%nat) as Happ
    by (induction m as [|[] m IH]; intro m'; simpl; rewrite ?IH; lia).
  induction l as [|a l IH]; simpl; auto.
  rewrite map_app, Happ, IH, map_map. simpl.
  assert (count_true (map (fun x => p a && q x) l') = ((if p a then 1 else 0) * count_true (map q l'))%nat) as ->.
  { destruct (p a); simpl; [rewrite Nat.add_0_r; auto|]. clear. induction l'; simpl; auto. }
  destruct (p a); simpl; lia.
Qed.

Lemma tiling ex ey d (u : muon) :
  increasing ex -> increasing ey -> (2 <= len ex)%nat -> (2 <= len ey)%nat ->
  count_true (map (fun cell => in_xy (Some (fst (fst cell), fst (snd cell))) (Some (snd (fst cell), snd (snd cell))) u)
                  (grid_cells ex ey))
  = if in_xy (Some (hd d ex, hd d ey)) (Some (last ex d, last ey d)) u then 1%nat else 0%nat.
Proof.
  intros Hx Hy Lx Ly.
  assert (forall cell, in_xy (Some (fst (fst cell), fst (snd cell))) (Some (snd (fst cell), snd (snd cell))) u
                       = inside (mx u) (fst cell) && inside (my u) (snd cell)) as E.
  { intros [[a b] [c e]]. unfold in_xy, inside; cbn. destruct (xle a (mx u)), (xlt (mx u) b), (xle c (my u)); auto. }
  rewrite (map_ext _ _ E). unfold grid_cells. rewrite count_prod, !(count_intervals _ _ d) by auto.
  unfold in_xy; cbn [fst snd].
  destruct (xle (hd d ex) (mx u)), (xlt (mx u) (last ex d)), (xle (hd d ey) (my u)), (xlt (my u) (last ey d)); reflexivity.
Qed.

(* ---------- arguments of the wrong length ---------- *)
Lemma bcast_in_bad f l vs :
  List.length vs <> 1%nat -> List.length vs <> List.length l -> bcast_in f l (Vec vs) = Err RuntimeError.
Proof.
  intros N1 N. unfold bcast_in, bcast. rewrite (proj2 (Nat.eqb_neq _ _) N).
  destruct vs as [|v [|v' vs]]; cbn in N1; try lia.
  - destruct l as [|x [|y l]]; cbn in *; try reflexivity; lia.
  - destruct l as [|x [|y l]]; cbn [bind map List.length]; try reflexivity.
Qed.
Lemma col_index_len c m ms l : col_index c m ms = Ok l -> List.length l = count_true m.
Proof.
  unfold col_index, bool_index. destruct (Nat.eqb_spec (List.length m) (List.length (col c ms))) as [E|]; [|discriminate].
  intro Q. injection Q as <-. apply select_length. exact E.
Qed.
Lemma propagate_bad {H} m vs (b : batch H) :
  List.length m = List.length (b_muons b) -> List.length vs <> 1%nat -> List.length vs <> count_true m ->
  propagate_d (Vec vs) (Some m) b = Err RuntimeError /\ propagate_dz (Vec vs) (Some m) b = Err RuntimeError.
Proof.
  intros L N1 N. unfold propagate_d, propagate_dz, propagate_d_ms, propagate_dz_ms. cbn [mask_or_ones].
  assert (G : forall c, exists l, col_index c m (b_muons b) = Ok l /\ List.length l = count_true m).
  { intro c. unfold col_index, bool_index, col. rewrite map_length, L, Nat.eqb_refl. eexists. split; [reflexivity|].
    apply select_length. now rewrite map_length. }
  destruct (G cth) as (th & -> & Lt). destruct (G cph) as (ph & -> & Lp). cbn [bind].
  rewrite !bcast_in_bad by (rewrite ?map_length, ?Lt; assumption). split; reflexivity.
Qed.
Lemma turn_xy_bad {H} m vs o (b : batch H) :
  List.length m = List.length (b_muons b) -> List.length vs <> 1%nat -> List.length vs <> count_true m ->
  scatter_dtheta_xy (Some (Vec vs)) o (Some m) b = Err RuntimeError.
Proof.
  intros L N1 N. unfold scatter_dtheta_xy, dtheta_xy_part. cbn [mask_or_ones].
  assert (G : forall c, exists l, col_index c m (b_muons b) = Ok l /\ List.length l = count_true m).
  { intro c. unfold col_index, bool_index, col. rewrite map_length, L, Nat.eqb_refl. eexists. split; [reflexivity|].
    apply select_length. now rewrite map_length. }
  destruct (G cth) as (th & -> & Lt). destruct (G cph) as (ph & -> & Lp). cbn [bind]. cbv zeta.
  unfold vadd_opt at 1. rewrite bcast_in_bad; [reflexivity|assumption|]. rewrite map2_length, Lt, Lp, Nat.min_id. exact N.
Qed.
