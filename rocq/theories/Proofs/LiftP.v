From Coq Require Import Reals List String Lra Lia ZArith.
From Verif Require Import Base.Masks Model.Volume Model.X0Infer Spec.VolumeSpec Spec.InferSpec Spec.LiftSpec.
From Verif Require Import Base.XR.
Open Scope R_scope.
Open Scope string_scope.
Open Scope list_scope.

(* ---------- generalities ---------- *)
Lemma bind_along {A A' B B'} (F : A -> A') (G : B -> B') r r' (k : A -> res B) k' :
  r' = rmap F r -> (forall a, r = Ok a -> k' (F a) = rmap G (k a)) -> bind r' k' = rmap G (bind r k).
Proof. intros -> H. destruct r; [now apply H|reflexivity]. Qed.
Lemma bind_same {A B B'} (G : B -> B') r r' (k : A -> res B) k' : r' = r -> (forall a, r = Ok a -> k' a = rmap G (k a)) -> bind r' k' = rmap G (bind r k).
Proof. intros -> H. destruct r; [now apply H|reflexivity]. Qed.
Lemma mapM_along {A A' B B'} (F : A -> A') (G : B -> B') (f : A -> res B) f' l : (forall a, f' (F a) = rmap G (f a)) -> mapM f' (map F l) = rmap (map G) (mapM f l).
Proof.
  intro H. induction l as [|a l IH]; [reflexivity|]. cbn [map mapM]. apply (bind_along G); [apply H|]. intros b _. apply (bind_along (map G)); [exact IH|]. reflexivity.
Qed.
Lemma index_along {A B} (f : A -> B) m l : bool_index m (map f l) = rmap (map f) (bool_index m l).
Proof. unfold bool_index. rewrite map_length. destruct (_ =? _)%nat; [|reflexivity]. cbn. now rewrite select_map. Qed.
Lemma put_along {A B} (f : A -> B) m : forall l v, put m (map f l) (map f v) = map f (put m l v).
Proof.
  induction m as [|b m IH]; intros [|a l] v; try reflexivity; [destruct b; reflexivity|]. destruct b; cbn; [destruct v as [|x v]; cbn|]; f_equal; try apply IH. apply (IH l []).
Qed.
Lemma assign_along {A B} (f : A -> B) m l v : bool_assign m (map f l) (map f v) = rmap (map f) (bool_assign m l v).
Proof. unfold bool_assign. rewrite !map_length. destruct (_ =? _)%nat; [|reflexivity]. destruct (_ =? _)%nat; [|reflexivity]. cbn. now rewrite put_along. Qed.

Section L.
Variable h : R.
Notation um := (up_muon h). Notation uz := (up_z h). Notation ub := (up_batch h).
Lemma uz_add z d : xadd (uz z) d = uz (xadd z d).
Proof. unfold up_z. destruct z, d; cbn; try reflexivity. f_equal. ring. Qed.
Lemma uz_sub z d : xsub (uz z) d = uz (xsub z d).
Proof. apply uz_add. Qed.
Lemma uz_rel z a : xsub (uz z) (Fin (a + h)) = xsub z (Fin a).
Proof. unfold up_z. destruct z; cbn; try reflexivity. f_equal. ring. Qed.
Lemma uz_lt a z : xlt (Fin (a + h)) (uz z) = xlt (Fin a) z.
Proof. unfold up_z. destruct z; cbn; try reflexivity. unfold Rltb. destruct (Rlt_dec (a + h) (r + h)), (Rlt_dec a r); try reflexivity; lra. Qed.
Lemma uz_le a z : xle (uz z) (Fin (a + h)) = xle z (Fin a).
Proof. unfold up_z. destruct z; cbn; try reflexivity. destruct (Rleb_spec (r + h) (a + h)), (Rleb_spec r a); try reflexivity; lra. Qed.

(* ---------- columns ---------- *)
Definition level (c : column) : Prop := (forall u, cget c (um u) = cget c u) /\ forall u v, cset c (um u) v = um (cset c u v).
Lemma level_x : level cx. Proof. split; reflexivity. Qed.
Lemma level_y : level cy. Proof. split; reflexivity. Qed.
Lemma level_th : level cth. Proof. split; reflexivity. Qed.
Lemma level_ph : level cph. Proof. split; reflexivity. Qed.
Lemma index_level c m ms : level c -> col_index c m (map um ms) = col_index c m ms.
Proof. intros [G _]. unfold col_index, MuonBatch.col. rewrite map_map. now rewrite (map_ext _ _ G). Qed.
Lemma assign_level c m ms v : level c -> col_assign c m (map um ms) v = rmap (map um) (col_assign c m ms v).
Proof.
  intros [G S]. unfold col_assign, MuonBatch.col. rewrite map_map, (map_ext _ _ G). apply bind_same; [reflexivity|]. intros w _. cbn. f_equal.
  clear - S. revert w. induction ms as [|u ms IH]; intros [|x w]; try reflexivity. cbn. now rewrite S, IH.
Qed.
Lemma index_z m ms : col_index cz m (map um ms) = rmap (map uz) (col_index cz m ms).
Proof. unfold col_index, MuonBatch.col. rewrite <- index_along, !map_map. reflexivity. Qed.
Lemma assign_z m ms v : col_assign cz m (map um ms) (map uz v) = rmap (map um) (col_assign cz m ms v).
Proof.
  unfold col_assign, MuonBatch.col. apply (bind_along (map uz)); [rewrite <- assign_along, !map_map; reflexivity|]. intros w _. cbn. f_equal.
  revert w. induction ms as [|u ms IH]; intros [|x w]; try reflexivity. cbn. now rewrite IH.
Qed.
Lemma map2_uz (f : xr -> xr -> xr) l : (forall z d, f (uz z) d = uz (f z d)) -> forall d, map2 f (map uz l) d = map uz (map2 f l d).
Proof. intro H. induction l as [|a l IH]; intros [|x d]; try reflexivity. cbn. now rewrite H, IH. Qed.
Lemma bcast_uz (f : xr -> xr -> xr) l a : (forall z d, f (uz z) d = uz (f z d)) -> bcast f (map uz l) a = rmap (map uz) (bcast f l a).
Proof.
  intro H. unfold bcast. destruct a as [v|vs]; [cbn; f_equal; rewrite !map_map; now apply map_ext|]. rewrite map_length. destruct (_ =? _)%nat; [cbn; f_equal; now apply map2_uz|].
  assert (E : forall x (w : list xr), map (fun v => f (uz x) v) w = map uz (map (fun v => f x v) w)). { intros x w. rewrite map_map. apply map_ext. intro. apply H. }
  assert (F : forall v, map (fun x => f x v) (map uz l) = map uz (map (fun x => f x v) l)). { intro v. rewrite !map_map. apply map_ext. intro. apply H. }
  destruct vs as [|v [|v' vs]].
  - destruct l as [|x [|y l]]; reflexivity.
  - cbn [rmap]. now rewrite F.
  - destruct l as [|x [|y l]]; try reflexivity. cbn [map rmap]. f_equal. apply (E x (v :: v' :: vs)).
Qed.
Lemma bcast_in_uz (f : xr -> xr -> xr) l a : (forall z d, f (uz z) d = uz (f z d)) -> bcast_in f (map uz l) a = rmap (map uz) (bcast_in f l a).
Proof.
  intro H. unfold bcast_in. apply (bind_along (map uz)); [now apply bcast_uz|]. intros v _. rewrite !map_length. destruct (_ =? _)%nat; reflexivity.
Qed.

(* ---------- the muons of a batch ---------- *)
Lemma add_level c m d ms : level c -> add_opt c m d (map um ms) = rmap (map um) (add_opt c m d ms).
Proof.
  intros L. unfold add_opt. destruct d as [a|]; [|reflexivity]. apply bind_same; [now apply index_level|]. intros old _. apply bind_same; [reflexivity|]. intros new _. now apply assign_level.
Qed.
Lemma add_z m d ms : add_opt cz m d (map um ms) = rmap (map um) (add_opt cz m d ms).
Proof.
  unfold add_opt. destruct d as [a|]; [|reflexivity]. apply (bind_along (map uz)); [apply index_z|]. intros old _.
  apply (bind_along (map uz)); [apply bcast_uz, uz_add|]. intros new _. apply assign_z.
Qed.
Lemma dz_ms m dz ms : propagate_dz_ms m dz (map um ms) = rmap (map um) (propagate_dz_ms m dz ms).
Proof.
  unfold propagate_dz_ms. apply bind_same; [apply index_level, level_th|]. intros th _. apply bind_same; [apply index_level, level_ph|]. intros ph _.
  apply bind_same; [reflexivity|]. intros r _. cbv zeta. apply bind_same; [apply index_level, level_x|]. intros x _.
  apply (bind_along (map um)); [apply assign_level, level_x|]. intros ms1 _. apply bind_same; [apply index_level, level_y|]. intros y _.
  apply (bind_along (map um)); [apply assign_level, level_y|]. intros ms2 _. apply (bind_along (map uz)); [apply index_z|]. intros z _.
  apply (bind_along (map uz)); [apply bcast_in_uz, uz_sub|]. intros z' _. apply assign_z.
Qed.
Lemma d_ms m d ms : propagate_d_ms m d (map um ms) = rmap (map um) (propagate_d_ms m d ms).
Proof.
  unfold propagate_d_ms. apply bind_same; [apply index_level, level_th|]. intros th _. apply bind_same; [apply index_level, level_ph|]. intros ph _.
  apply bind_same; [reflexivity|]. intros r _. apply bind_same; [apply index_level, level_x|]. intros x _.
  apply (bind_along (map um)); [apply assign_level, level_x|]. intros ms1 _. apply bind_same; [apply index_level, level_y|]. intros y _.
  apply (bind_along (map um)); [apply assign_level, level_y|]. intros ms2 _. apply (bind_along (map uz)); [apply index_z|]. intros z _.
  apply bind_same; [reflexivity|]. intros dc _. rewrite map2_uz by apply uz_sub. apply assign_z.
Qed.
Lemma dxy_ms m a b ms : dtheta_xy_part m a b (map um ms) = rmap (map um) (dtheta_xy_part m a b ms).
Proof.
  unfold dtheta_xy_part. apply bind_same; [apply index_level, level_th|]. intros th _. apply bind_same; [apply index_level, level_ph|]. intros ph _. cbv zeta.
  apply bind_same; [reflexivity|]. intros tx _. apply bind_same; [reflexivity|]. intros ty _.
  apply (bind_along (map um)); [apply assign_level, level_th|]. intros ms1 _. apply assign_level, level_ph.
Qed.

(* ---------- batches ---------- *)
Lemma ub_muons b : b_muons (ub b) = map um (b_muons b). Proof. reflexivity. Qed.
Lemma ub_with b ms : with_muons (ub b) (map um ms) = ub (with_muons b ms). Proof. reflexivity. Qed.
Lemma mask_len m b : mask_or_ones (List.length (b_muons (ub b))) m = mask_or_ones (List.length (b_muons b)) m.
Proof. rewrite ub_muons, map_length. reflexivity. Qed.
Lemma dz_b dz m b : propagate_dz dz m (ub b) = rmap ub (propagate_dz dz m b).
Proof. unfold propagate_dz. rewrite mask_len. apply (bind_along (map um)); [apply dz_ms|]. intros ms _. cbn. now rewrite ub_with. Qed.
Lemma d_b d m b : propagate_d d m (ub b) = rmap ub (propagate_d d m b).
Proof. unfold propagate_d. rewrite mask_len. apply (bind_along (map um)); [apply d_ms|]. intros ms _. cbn. now rewrite ub_with. Qed.
Lemma dxyz_b x y z m b : scatter_dxyz x y z m (ub b) = rmap ub (scatter_dxyz x y z m b).
Proof.
  unfold scatter_dxyz. rewrite mask_len. cbv zeta. apply (bind_along (map um)); [apply add_level, level_x|]. intros m1 _.
  apply (bind_along (map um)); [apply add_level, level_y|]. intros m2 _. apply (bind_along (map um)); [apply add_z|]. intros m3 _. cbn. now rewrite ub_with.
Qed.
Lemma rows_index name m t : bool_index m (up_rows h name t) = rmap (up_rows h name) (bool_index m t).
Proof. unfold up_rows. destruct (_ || _)%bool; [apply index_along|]. now destruct (bool_index m t). Qed.
Lemma filter_b keep b : filter_muons keep (ub b) = rmap ub (filter_muons keep b).
Proof.
  unfold filter_muons. rewrite ub_muons, map_length. destruct (Nat.ltb _ _); [|reflexivity].
  apply (bind_along (map um)); [apply index_along|]. intros gone _. cbv zeta. apply (bind_along (map um)); [apply index_along|]. intros ms _.
  apply (bind_along (up_hits h)).
  - unfold up_hits. cbn [up_batch b_hits]. unfold up_hits. apply (mapM_along (fun pv : string * list (string * list (list hrow)) => (fst pv, map (up_var h) (snd pv)))).
    intros [p vs]. cbn [fst snd]. apply (bind_along (map (up_var h))); [|reflexivity]. apply (mapM_along (up_var h)). intros [n ts]. unfold up_var. cbn [fst snd].
    apply (bind_along (map (up_rows h n))); [|reflexivity]. apply mapM_along. intro t. apply rows_index.
  - intros hits _. cbn. unfold up_batch. cbn. f_equal. f_equal. destruct (b_removed b); cbn; [now rewrite map_app|reflexivity].
Qed.
Lemma up_b b : remove_upwards_muons (ub b) = rmap ub (remove_upwards_muons b).
Proof. unfold remove_upwards_muons. rewrite ub_muons, map_map. apply filter_b. Qed.
Lemma dthxy_b x y m b : scatter_dtheta_xy x y m (ub b) = rmap ub (scatter_dtheta_xy x y m b).
Proof.
  unfold scatter_dtheta_xy. rewrite mask_len. cbv zeta. apply (bind_along (map um)); [apply dxy_ms|]. intros ms _. rewrite ub_with. apply up_b.
Qed.
Lemma xymask_b lo hi b : get_xy_mask lo hi (ub b) = get_xy_mask lo hi b.
Proof. unfold get_xy_mask. rewrite ub_muons, map_map. reflexivity. Qed.
Lemma snap_b b : snapshot_xyz (ub b) = ub (snapshot_xyz b).
Proof. unfold snapshot_xyz, up_batch. cbn. f_equal. rewrite map_app. cbn. rewrite !map_map. reflexivity. Qed.

(* ---------- passive layers ---------- *)
Lemma bot L : pl_bot (up_passive h L) = pl_bot L + h.
Proof. unfold pl_bot. cbn. ring. Qed.
Lemma rel_list a ms : map (fun u => xsub (mz u) (Fin (a + h))) (map um ms) = map (fun u => xsub (mz u) (Fin a)) ms.
Proof. rewrite map_map. apply map_ext. intro u. apply uz_rel. Qed.
Lemma scatter_b L rng mask b : scatter_and_propagate (up_passive h L) rng mask (ub b) = rmap ub (scatter_and_propagate L rng mask b).
Proof.
  unfold scatter_and_propagate. cbn [up_passive pl_rad pl_lx pl_ly pl_step]. destruct (pl_rad L) as [rad|]; [|apply d_b].
  apply bind_same; [now rewrite xymask_b|]. intros sm _. apply (bind_along (map um)); [rewrite ub_muons; apply index_along|]. intros sel _.
  apply bind_same. { clear. induction sel as [|u sel IH]; [reflexivity|]. cbn [map mapM]. rewrite IH. reflexivity. }
  intros x0 _. cbv zeta. rewrite map_map, bot.
  apply bind_same.
  { unfold compute_scattering. cbn [up_passive pl_model]. destruct (String.eqb _ "pdg"); [|reflexivity].
    set (st := fun u => if xlt (xdiv (xsub (mz u) (Fin (pl_bot L))) (xcos (mth u))) (Fin (pl_step L)) then xdiv (xsub (mz u) (Fin (pl_bot L))) (xcos (mth u)) else Fin (pl_step L)).
    assert (E : map (fun u => if xlt (xdiv (xsub (mz (um u)) (Fin (pl_bot L + h))) (xcos (mth (um u)))) (Fin (pl_step L)) then xdiv (xsub (mz (um u)) (Fin (pl_bot L + h))) (xcos (mth (um u))) else Fin (pl_step L)) sel = map st sel).
    { apply map_ext. intro u. cbn [up_muon mz mth]. rewrite uz_rel. reflexivity. }
    rewrite E. f_equal.
    assert (Q : forall (sel : list muon) x0 st (w : list draw),
      map2 (fun (q : muon * R * xr) d => let '(u, x0, st) := q in pdg_scatter1 (Fin x0) (mth u) (mph u) (mu_theta_x u) (mu_theta_y u) (mp u) st d)
        (map2 (fun ux st => (ux, st)) (map2 pair (map um sel) x0) st) w
      = map2 (fun (q : muon * R * xr) d => let '(u, x0, st) := q in pdg_scatter1 (Fin x0) (mth u) (mph u) (mu_theta_x u) (mu_theta_y u) (mp u) st d)
        (map2 (fun ux st => (ux, st)) (map2 pair sel x0) st) w).
    { clear. induction sel as [|u sel IH]; intros [|x x0] [|s st] [|d w]; try reflexivity. cbn [map map2]. rewrite IH. reflexivity. }
    rewrite Q. do 3 f_equal. rewrite !map2_length, !map_length. reflexivity. }
  intros sc _. apply (bind_along ub); [apply dxyz_b|]. intros b1 _. apply (bind_along ub); [apply d_b|]. intros b2 _.
  cbv zeta. rewrite ub_muons, rel_list. apply bind_same; [reflexivity|]. intros em _. apply bind_same; [reflexivity|]. intros de _.
  apply (bind_along ub); [apply dz_b|]. intros b3 _. apply dthxy_b.
Qed.
Definition orup {A} (f : A -> A) : option (res A) -> option (res A) := option_map (rmap f).
Lemma loop_b L rng fuel : forall k mask b, layer_loop (up_passive h L) rng fuel k mask (ub b) = orup ub (layer_loop L rng fuel k mask b).
Proof.
  induction fuel as [|fuel IH]; intros k mask b; cbn [layer_loop]; destruct (existsb _ mask); try reflexivity.
  rewrite scatter_b. destruct (scatter_and_propagate L (rng k) mask b) as [b'|e]; [|reflexivity]. cbn [rmap]. rewrite <- IH. f_equal.
  rewrite ub_muons, map_map. apply map_ext. intro u. unfold in_layer. rewrite bot. cbn [up_passive pl_z up_muon mz]. now rewrite uz_lt, uz_le.
Qed.
Lemma layer_b L rng fuel b : layer_forward (up_passive h L) rng fuel (ub b) = orup ub (layer_forward L rng fuel b).
Proof.
  unfold layer_forward. rewrite ub_muons. cbn [up_passive pl_z]. rewrite rel_list, dz_b. destruct (propagate_dz _ None b) as [b1|e]; [|reflexivity]. cbn [rmap].
  rewrite ub_muons, map_length, loop_b. destruct (layer_loop L rng fuel 0 _ b1) as [[b2|e]|]; try reflexivity. cbn [orup option_map rmap].
  rewrite ub_muons, bot, rel_list, dz_b. reflexivity.
Qed.

(* ---------- detector layers ---------- *)
Lemma hits_b P tr rng ms : panel_hits (up_panel h P) tr rng (map um ms) = rmap (map (fun kv => (fst kv, up_rows h (fst kv) (snd kv)))) (panel_hits P tr rng ms).
Proof.
  unfold panel_hits. rewrite map_length.
  set (F := fun q : hrow * hrow * hrow * hrow => (up_row h (fst (fst (fst q))), up_row h (snd (fst (fst q))), snd (fst q), snd q)).
  apply (bind_along (map F)).
  - assert (E : forall s, combine s (map um ms) = map (fun iu : nat * muon => (fst iu, um (snd iu))) (combine s ms)).
    { revert ms. induction ms as [|u ms IH]; intros [|i s]; try reflexivity. cbn. now rewrite IH. }
    rewrite E. apply mapM_along. intros [i u]. cbn [fst snd up_muon mx my]. unfold hit1.
    change (span_x (up_panel h P)) with (span_x P). change (span_y (up_panel h P)) with (span_y P). cbn [up_panel with_place pn_x pn_y pn_z pn_real]. cbv zeta.
    apply bind_same; [reflexivity|]. intros r _. apply bind_same; [reflexivity|]. intros e _. reflexivity.
  - intros rows _. cbn. unfold up_rows. cbn. rewrite !map_map. reflexivity.
Qed.
Lemma dict_along {V W} (g : string -> V -> W) k d0 d0' f f' d : g k d0 = d0' -> (forall v, g k (f v) = f' (g k v)) ->
  map (fun kv => (fst kv, g (fst kv) (snd kv))) (dict_update k d0 f d) = dict_update k d0' f' (map (fun kv => (fst kv, g (fst kv) (snd kv))) d).
Proof.
  intros E0 Ef. induction d as [|[k' v] d IH]; cbn [dict_update map fst snd]; [now rewrite Ef, E0|].
  destruct (String.eqb_spec k k') as [<-|N]; cbn [map fst snd]; [now rewrite Ef|]. now rewrite IH.
Qed.
Lemma append_b hits pos b : append_hits (map (fun kv => (fst kv, up_rows h (fst kv) (snd kv))) hits) pos (ub b) = ub (append_hits hits pos b).
Proof.
  unfold append_hits, up_batch. cbn. f_equal. generalize (b_hits b). induction hits as [|[n t] hits IH]; intro d; [reflexivity|]. cbn [map fold_left fst snd].
  rewrite <- IH. f_equal. symmetry. unfold up_hits.
  apply (dict_along (fun _ vs => map (up_var h) vs)); [reflexivity|]. intro vs. unfold up_var.
  apply (dict_along (fun n ts => map (up_rows h n) ts)); [reflexivity|]. intro l. rewrite map_app. reflexivity.
Qed.
Section S.
Variable argsort : list R -> list nat.
Hypothesis Cmp : by_comparison argsort.
Lemma order_b D : panel_zorder argsort (up_det h D) = panel_zorder argsort D.
Proof.
  unfold panel_zorder. f_equal. cbn [up_det dl_panels]. rewrite map_map. cbn. symmetry. apply Cmp; [now rewrite !map_length|]. rewrite map_length. intros i j Hi Hj.
  assert (E : forall i, (i < List.length (dl_panels D))%nat -> nth i (map (fun P => pn_z P + h) (dl_panels D)) 0 = nth i (map pn_z (dl_panels D)) 0 + h).
  { intros n Hn. rewrite (nth_indep _ 0 (0 + h)) by now rewrite map_length. rewrite <- (map_map pn_z (fun z => z + h)). now rewrite (map_nth (fun z => z + h)). }
  rewrite !E by assumption. lra.
Qed.
Lemma visit_b D tr rng order : forall k b, visit_panels (up_det h D) tr rng order k (ub b) = rmap ub (visit_panels D tr rng order k b).
Proof.
  induction order as [|i order IH]; intros k b; [reflexivity|]. cbn [visit_panels up_det dl_panels dl_pos]. rewrite nth_error_map.
  destruct (nth_error (dl_panels D) i) as [P|]; [|reflexivity]. cbn [option_map]. cbn [up_panel with_place pn_z]. rewrite ub_muons, rel_list.
  apply (bind_along ub); [apply dz_b|]. intros b1 _. rewrite ub_muons.
  eapply bind_along; [apply hits_b|]. intros hits _. rewrite append_b. apply IH.
Qed.
Lemma det_b D tr rng b : det_forward argsort (up_det h D) tr rng (ub b) = rmap ub (det_forward argsort D tr rng b).
Proof.
  unfold det_forward. rewrite order_b. apply (bind_along ub); [apply visit_b|]. intros b1 _. cbn [up_det dl_z dl_size]. rewrite ub_muons.
  replace (dl_z D + h - dl_size D) with (dl_z D - dl_size D + h) by ring. rewrite rel_list. apply dz_b.
Qed.

(* ---------- volumes ---------- *)
Lemma cross_b tr o ls : forall k b, cross_layers argsort tr o (map (up_layer h) ls) k (ub b) = orup ub (cross_layers argsort tr o ls k b).
Proof.
  induction ls as [|l ls IH]; intros k b; [reflexivity|]. cbn [map cross_layers]. destruct l as [L|D]; cbn [up_layer].
  - rewrite layer_b. destruct (layer_forward L _ _ b) as [[b'|e]|]; try reflexivity. cbn [orup option_map rmap]. rewrite snap_b. apply IH.
  - rewrite det_b. destruct (det_forward argsort D tr _ b) as [b'|e]; [|reflexivity]. cbn [rmap]. rewrite snap_b. apply IH.
Qed.
Lemma set_nth_up ps i c : set_nth (map (up_panel h) ps) i (panel_assign_budget c) = map (up_panel h) (set_nth ps i (panel_assign_budget c)).
Proof. revert i. induction ps as [|P ps IH]; intros [|i]; try reflexivity. cbn. now rewrite IH. Qed.
Lemma give_b order : forall bud ps, give_budgets order bud (map (up_panel h) ps) = rmap (map (up_panel h)) (give_budgets order bud ps).
Proof. induction order as [|j order IH]; intros [|c bud] ps; try reflexivity. cbn [give_budgets]. now rewrite set_nth_up, IH. Qed.
Lemma det_budget_b bud D : det_assign_budget argsort bud (up_det h D) = rmap (up_det h) (det_assign_budget argsort bud D).
Proof. unfold det_assign_budget. rewrite order_b. apply (bind_along (map (up_panel h))); [apply give_b|]. intros ps _. reflexivity. Qed.
Lemma layers_b ls : forall sh, give_layers argsort sh (map (up_layer h) ls) = rmap (map (up_layer h)) (give_layers argsort sh ls).
Proof.
  induction ls as [|[L|D] ls IH]; intro sh; [reflexivity| |]; cbn [map up_layer give_layers].
  - apply (bind_along (map (up_layer h))); [apply IH|]. reflexivity.
  - unfold n_costs. cbn [up_det dl_panels]. rewrite map_length. apply (bind_along (up_det h)); [apply det_budget_b|]. intros D' _.
    apply (bind_along (map (up_layer h))); [apply IH|]. reflexivity.
Qed.
Lemma budget_b V : assign_budget argsort (up_volume h V) = rmap (up_volume h) (assign_budget argsort V).
Proof.
  unfold assign_budget. cbn [up_volume v_budget v_weights v_layers v_target]. destruct (v_budget V) as [c|] eqn:E; [|cbn; unfold up_volume; rewrite E; reflexivity].
  apply (bind_along (map (up_layer h))); [apply layers_b|]. intros ls _. cbn. unfold up_volume. cbn. reflexivity.
Qed.
Lemma forward_b tr o V b : volume_forward argsort tr o (up_volume h V) (ub b) = orup (fun vb => (up_volume h (fst vb), ub (snd vb))) (volume_forward argsort tr o V b).
Proof.
  unfold volume_forward. rewrite budget_b. destruct (assign_budget argsort V) as [V'|e]; [|reflexivity]. cbn [rmap up_volume v_layers].
  rewrite cross_b. destruct (cross_layers argsort tr o (v_layers V') 0 b) as [[b'|e]|]; reflexivity.
Qed.
End S.
End L.
