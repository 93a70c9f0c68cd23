(* Properties C48, C49 and C51: callbacks on detector parameters. *)
From Coq Require Import Reals Lra Lia List.
From Verif Require Import Model.DetCb Model.Panel Spec.DetCbSpec Spec.LadleSpec Proofs.DetCbP.
Import ListNotations.
Open Scope R_scope.
Open Scope list_scope.

(* C48. Parameters are recorded before the step and limited after it.  In between anything may happen to memory and to the storages
   parameters refer to, as long as the recorded copies (made in new storages) are not written.  Then every panel has moved by a bounded
   step, and nothing that was in memory is written. *)
Theorem C48_limited :
  forall lm ds m ds2 m2,
  not_negative (bounds_xy lm) -> not_negative (bounds_z lm) -> not_negative (bounds_span lm) ->
  Forall (shaped m) (panels_of ds) -> Forall2 same_kind ds ds2 -> Forall (shaped m2) (panels_of ds2) ->
  exists m1 recs, lim_backwards_end m ds = Ok (m1, recs) /\ (forall a, (a < length m)%nat -> rd m1 a = rd m a) /\
  ((forall a, (length m <= a < length m1)%nat -> rd m2 a = rd m1 a) ->
   exists m3 ds3, lim_step_end lm m2 recs ds2 = Ok (m3, ds3) /\ Forall2 same_kind ds2 ds3 /\ (forall a, (a < length m2)%nat -> rd m3 a = rd m2 a) /\
   forall i p p2 p3, nth_error (panels_of ds) i = Some p -> nth_error (panels_of ds2) i = Some p2 -> nth_error (panels_of ds3) i = Some p3 ->
   bounded_step (bounds_xy lm) (rd m (a_xy p)) (rd m2 (a_xy p2)) (rd m3 (a_xy p3)) /\
   bounded_step (bounds_z lm) (rd m (a_z p)) (rd m2 (a_z p2)) (rd m3 (a_z p3)) /\
   bounded_step (bounds_span lm) (rd m (a_span p)) (rd m2 (a_span p2)) (rd m3 (a_span p3))).
Proof.
  intros lm ds m ds2 m2 N1 N2 N3 S K S2. destruct (same_kind_len _ _ K) as (L & H2 & H1). destruct (lim_backwards_spec ds m S H1) as (m1 & recs & E & X & F).
  exists m1, recs. split; [exact E|]. split; [intros a Ha; now apply ext_rd|]. intros C.
  assert (EQ : Forall2 (fun p r => rd m2 (a_xy r) = rd m (a_xy p) /\ rd m2 (a_z r) = rd m (a_z p) /\ rd m2 (a_span r) = rd m (a_span p)) (panels_of ds) recs).
  { revert F. apply Forall2_imp. intros p r _ _ ((A & B & D) & E1 & E2 & E3). rewrite !C by lia. auto. }
  assert (SR : Forall (shaped m2) recs). { clear -EQ S. revert S. induction EQ as [|p r ps rs (E1 & E2 & E3) EQ IH]; intros S; constructor; inversion S as [|? ? Sp Sps]; subst; auto. destruct Sp as (A & B & D). unfold shaped. now rewrite E1, E2, E3. }
  assert (LR : length recs = length (panels_of ds2)). { rewrite L. clear -F. induction F; cbn; auto. }
  destruct (lim_step_spec lm (conj N1 (conj N2 N3)) ds2 recs m2 LR SR S2 H2) as (m3 & ds3 & E3 & X3 & K3 & F3).
  exists m3, ds3. split; [exact E3|]. split; [exact K3|]. split; [intros a Ha; now apply ext_rd|]. intros i p p2 p3 I1 I2 I3.
  assert (I : exists r, nth_error recs i = Some r /\ rd m2 (a_xy r) = rd m (a_xy p) /\ rd m2 (a_z r) = rd m (a_z p) /\ rd m2 (a_span r) = rd m (a_span p)).
  { clear -EQ I1. revert i I1. induction EQ as [|q r ps rs Q EQ IH]; intros [|i] I1; try discriminate; cbn in *; [injection I1 as <-; eauto|auto]. }
  destruct I as (r & I & Q1 & Q2 & Q3). destruct (Forall3_nth _ _ _ _ _ _ _ _ F3 I I2 I3) as (_ & A & B & D). rewrite Q1 in A. rewrite Q2 in B. rewrite Q3 in D. auto.
Qed.
Print Assumptions C48_limited.
(* C48. A step to plus or minus infinity is limited like any other; a step to NaN is not caught. *)
Theorem C48_not_finite :
  forall mx old new out i b o u, limit mx old new = Ok out -> nth_error mx i = Some b -> nth_error old i = Some (Fin o) -> nth_error new i = Some u ->
  (u = PInf -> nth_error out i = Some (Fin (o + b))) /\ (u = NInf -> nth_error out i = Some (Fin (o - b))) /\ (u = NaN -> nth_error out i = Some NaN).
Proof.
  intros mx old new out i b o u H. unfold limit in H. destruct (Nat.eqb _ _ && Nat.eqb _ _) eqn:E; [|discriminate]. injection H as <-.
  clear E. revert old new i. induction mx as [|b' mx IH]; intros old new i E1 E2 E3; [destruct i; discriminate|].
  destruct old as [|o' old]; [destruct i; discriminate|]. destruct new as [|u' new]; [destruct i; discriminate|]. destruct i as [|i].
  - cbn in E1, E2, E3. injection E1 as ->. injection E2 as ->. injection E3 as ->. cbn [combine map2 nth_error fst snd].
    split; [|split]; intros ->; unfold limit1, xsub; cbn [xopp xadd DetCb.xabs xlt DetCb.xsign xmul]; try reflexivity; do 2 f_equal; lra.
  - cbn [nth_error combine map2] in *. eapply IH; eassumption.
Qed.
Print Assumptions C48_not_finite.
Example C48_not_finite_case : exists out, limit [1; 1] [Fin 0; Fin 2] [NInf; NaN] = Ok out. Proof. eexists. reflexivity. Qed.
(* C48. Conforming the detector afterwards (panel.py:256-273) does not undo this: a panel that was inside moves no further in xy and span;
   in z it may be pushed by the random margin (at most 1e-3) even if the limit is smaller. *)
Theorem C48_conformed :
  forall (low high : R * R * R) e0 eps (P0 P1 : panel) bx by_ bz bsx bsy,
  let '(lx, ly, lz) := low in let '(hx, hy, hz) := high in
  let P2 := clamp_params low high eps P1 in
  0 <= e0 <= 1 / 1000 -> 0 <= eps <= 1 / 1000 -> lz + eps <= hz - eps ->
  lx <= pn_x P0 <= hx -> ly <= pn_y P0 <= hy -> lz + e0 <= pn_z P0 <= hz - e0 -> hx / 20 <= pn_sx P0 <= 10 * hx -> hy / 20 <= pn_sy P0 <= 10 * hy ->
  Rabs (pn_x P1 - pn_x P0) <= bx -> Rabs (pn_y P1 - pn_y P0) <= by_ -> Rabs (pn_z P1 - pn_z P0) <= bz ->
  Rabs (pn_sx P1 - pn_sx P0) <= bsx -> Rabs (pn_sy P1 - pn_sy P0) <= bsy ->
  Rabs (pn_x P2 - pn_x P0) <= bx /\ Rabs (pn_y P2 - pn_y P0) <= by_ /\ Rabs (pn_z P2 - pn_z P0) <= Rmax bz (1 / 1000) /\
  Rabs (pn_sx P2 - pn_sx P0) <= bsx /\ Rabs (pn_sy P2 - pn_sy P0) <= bsy.
Proof.
  intros [[lx ly] lz] [[hx hy] hz] e0 eps P0 P1 bx by_ bz bsx bsy P2 E0 E1 W X Y Z SX SY BX BY BZ BSX BSY.
  assert (A : forall lo hi o n b, lo <= o <= hi -> Rabs (n - o) <= b -> Rabs (Rclamp lo hi n - o) <= b).
  { intros lo hi o n b H B. assert (- b <= n - o <= b) by (split; [pose proof (Rle_abs (- (n - o))) as Q; rewrite Rabs_Ropp in Q|pose proof (Rle_abs (n - o))]; lra).
    unfold Rclamp, Rmin, Rmax. apply Rabs_le. repeat destruct (Rle_dec _ _); lra. }
  unfold P2, clamp_params, with_place. cbn [pn_x pn_y pn_z pn_sx pn_sy]. split; [now apply A|]. split; [now apply A|]. split; [|split; now apply A].
  assert (B : - bz <= pn_z P1 - pn_z P0 <= bz) by (split; [pose proof (Rle_abs (- (pn_z P1 - pn_z P0))) as Q; rewrite Rabs_Ropp in Q|pose proof (Rle_abs (pn_z P1 - pn_z P0))]; lra).
  pose proof (Rmax_l bz (1 / 1000)). pose proof (Rmax_r bz (1 / 1000)). set (B' := Rmax bz (1 / 1000)) in *. unfold Rclamp, Rmin, Rmax. apply Rabs_le. repeat destruct (Rle_dec _ _); lra.
Qed.
Print Assumptions C48_conformed.
(* C48 is false of a whole update in z: the margin drawn when conforming can push a panel by more than the maximum. *)
Theorem C48_update_refuted :
  exists lo hi e0 eps bz z0 z1, 0 <= e0 <= 1 / 1000 /\ 0 <= eps <= 1 / 1000 /\ 0 < bz /\ lo + e0 <= z0 <= hi - e0 /\ Rabs (z1 - z0) <= bz /\
  bz < Rabs (pn_z (clamp_params (0, 0, lo) (1, 1, hi) eps (Panel Gauss 1 1 0 0 z1 1 1 1 1 true)) - z0).
Proof.
  exists 0, 1, 0, (1 / 1000), (1 / 10000), 1, 1. unfold clamp_params, with_place. cbn [pn_z]. replace (1 - 1) with 0 by ring. rewrite Rabs_R0. unfold Rclamp, Rmin, Rmax.
  repeat destruct (Rle_dec _ _); try lra. rewrite Rabs_left by lra. lra.
Qed.
Print Assumptions C48_update_refuted.
(* heat maps have no xy: the limiter raises *)
Theorem C48_heatmap_refuted : exists m ds, lim_backwards_end m ds = Err AttributeError.
Proof. exists [], [DHeat]. reflexivity. Qed.
Print Assumptions C48_heatmap_refuted.
(* two panels; the optimiser moves the first one by (3, 1/2) in place *)
Example C48_case :
  let m := [[Fin 0; Fin 0]; [Fin 1]; [Fin 1; Fin 1]; [Fin 1; Fin 1]; [Fin 2]; [Fin 1; Fin 1]] in
  let ds := [DPanels [PPar 0 1 2; PPar 3 4 5]] in
  exists m1 recs, lim_backwards_end m ds = Ok (m1, recs) /\
  exists m3 ds3 p3, lim_step_end (Limits (Some (1, 1)) None None) (opt_step m1 [(0%nat, [Fin 3; Fin (1 / 2)])]) recs ds = Ok (m3, ds3) /\
  nth_error (panels_of ds3) 0 = Some p3 /\ rd m3 (a_xy p3) = [Fin 1; Fin (1 / 2)].
Proof.
  cbv zeta. do 2 eexists. split; [reflexivity|]. do 3 eexists. split; [reflexivity|]. split; [reflexivity|].
  transitivity [limit1 1 (Fin 0) (Fin (0 + 3)); limit1 1 (Fin 0) (Fin (0 + 1 / 2))]; [reflexivity|].
  rewrite limit1_over, limit1_under; [now rewrite !Rplus_0_l|rewrite Rabs_pos_eq; lra|lra|lra].
Qed.

(* C49. If every parameter has a gradient, the callback removes all NaNs (they become 0) and keeps every number. *)
Theorem C49_cleaned :
  forall budget ls, (forall g, budget = Some g -> has_grad g) -> Forall with_grads ls ->
  exists budget' ls', no_more_nans budget ls = Ok (budget', ls') /\ Forall2 cleaned_layer ls ls' /\
  match budget, budget' with Some g, Some g' => cleaned_grad g g' | None, None => True | _, _ => False end.
Proof.
  intros budget ls HB HL. destruct (mapM_forall2 clean_layer _ cleaned_layer ls clean_layer_spec HL) as (ls' & EL & F). unfold no_more_nans. destruct budget as [g|].
  - destruct (clean_grad g (HB g eq_refl)) as (g' & -> & G). cbn [rmap bind]. rewrite EL. cbn [bind]. exists (Some g'), ls'. auto.
  - cbn [bind]. rewrite EL. cbn [bind]. exists None, ls'. auto.
Qed.
Print Assumptions C49_cleaned.
(* C49 is false when there is no gradient: optimisers' zero_grad sets them to None, and when no volume could be scanned nothing is
   propagated back (volume_wrapper.py:573-580): the callback raises. *)
Theorem C49_no_gradient :
  forall budget l ls, (exists p ps, l = GPanels (p :: ps) /\ exists b c, p = (None, b, c)) -> budget = None -> no_more_nans budget (l :: ls) = Err TypeErr.
Proof. intros budget l ls (p & ps & -> & b & c & ->) ->. reflexivity. Qed.
Print Assumptions C49_no_gradient.
Theorem C49_no_gradient_refuted : exists ls, no_more_nans None ls = Err TypeErr.
Proof. exists [GPanels [(None, None, None)]]. reflexivity. Qed.
Print Assumptions C49_no_gradient_refuted.
Example C49_case :
  no_more_nans (Some (Some [NaN; Fin 2])) [GPanels [(Some [Fin 1; NaN], Some [Fin 3], Some [NaN; NaN])]] =
  Ok (Some (Some [Fin 0; Fin 2]), [GPanels [(Some [Fin 1; Fin 0], Some [Fin 3], Some [Fin 0; Fin 0])]]).
Proof. reflexivity. Qed.

(* C51. After centring all panels of a layer are at the mean of their positions; heights and widths are untouched. *)
Theorem C51_centred :
  forall m ds m' ds', Forall (shaped m) (panels_of ds) -> centre m ds = Ok (m', ds') ->
  (forall a, (a < length m)%nat -> rd m' a = rd m a) /\
  forall i ps xys, nth_error ds i = Some (DPanels ps) -> ps <> [] -> map (fun p => rd m (a_xy p)) ps = map (fun p => [Fin (fst p); Fin (snd p)]) xys ->
  exists ps', nth_error ds' i = Some (DPanels ps') /\ map a_z ps' = map a_z ps /\ map a_span ps' = map a_span ps /\
  Forall (fun p' => rd m' (a_xy p') = [Fin (mean (map fst xys)); Fin (mean (map snd xys))]) ps'.
Proof.
  intros m ds m' ds' S E. destruct (centre_spec _ _ _ _ E S) as [X F]. split; [intros a Ha; now apply ext_rd|]. intros i ps xys I N EQ.
  assert (J : exists d', nth_error ds' i = Some d' /\ exists qs a, DPanels ps = DPanels qs /\ d' = DPanels (map (fun p => PPar a (a_z p) (a_span p)) qs) /\ (length m <= a < length m')%nat /\ rd m' a = mean_rows (map (fun p => rd m (a_xy p)) qs)).
  { clear -F I. revert i I. induction F as [|d d' ds ds' Q F IH]; intros [|i] I; try discriminate; cbn in *; [injection I as ->; eauto|auto]. }
  destruct J as (d' & J & qs & a & Q & -> & La & R). injection Q as <-. exists (map (fun p => PPar a (a_z p) (a_span p)) ps). split; [exact J|]. rewrite !map_map. cbn [a_z a_span].
  split; [reflexivity|]. split; [reflexivity|]. rewrite EQ in R. assert (NX : xys <> []) by (intros ->; destruct ps; [congruence|discriminate]). rewrite (mean_rows2 _ xys eq_refl NX) in R.
  apply Forall_forall. intros p' Hp. apply in_map_iff in Hp as (p & <- & _). cbn [a_xy]. rewrite R. unfold mean. now rewrite !map_length.
Qed.
Print Assumptions C51_centred.
(* C51. But all panels then share one tensor: a step that updates each panel in place moves all of them by the sum of the updates. *)
Theorem C51_shared :
  forall m ps m' ps' us x y, Forall (shaped m) ps -> centre m [DPanels ps] = Ok (m', [DPanels ps']) -> length us = length ps ->
  Forall (fun p' => rd m' (a_xy p') = [Fin x; Fin y]) ps' ->
  Forall (fun p' => rd (opt_step m' (map2 (fun p' u => (a_xy p', [Fin (fst u); Fin (snd u)])) ps' us)) (a_xy p') = [Fin (x + Rsum (map fst us)); Fin (y + Rsum (map snd us))]) ps'.
Proof.
  intros m ps m' ps' us x y S E L H. assert (S' : Forall (shaped m) (panels_of [DPanels ps])) by (cbn; now rewrite app_nil_r). destruct (centre_spec _ _ _ _ E S') as [X F].
  inversion F as [|? ? ? ? (qs & a & Q1 & Q2 & La & _) _]; subst. injection Q1 as <-. injection Q2 as ->.
  assert (EM : map2 (fun p' u => (a_xy p', [Fin (fst u); Fin (snd u)])) (map (fun p => PPar a (a_z p) (a_span p)) ps) us = map (fun u => (a, [Fin (fst u); Fin (snd u)])) us).
  { clear -L. revert us L. induction ps as [|p ps IH]; intros [|u us] L; try discriminate; cbn; [reflexivity|]. f_equal. apply IH. cbn in L. lia. }
  rewrite EM. apply Forall_forall. intros p' Hp. rewrite Forall_forall in H. specialize (H p' Hp). apply in_map_iff in Hp as (p & <- & _). cbn [a_xy] in *. apply opt_step_shared; [lia|exact H].
Qed.
Print Assumptions C51_shared.
Theorem C51_independent_refuted :
  exists m ps m' p1 p2 u1 u2, Forall (shaped m) ps /\ centre m [DPanels ps] = Ok (m', [DPanels [p1; p2]]) /\
  rd m' (a_xy p1) = [Fin 1; Fin 1] /\ rd m' (a_xy p2) = [Fin 1; Fin 1] /\
  let m'' := opt_step m' [(a_xy p1, [Fin u1; Fin 0]); (a_xy p2, [Fin u2; Fin 0])] in
  rd m'' (a_xy p1) = [Fin 4; Fin 1] /\ u1 = 1 /\ u2 = 2.
Proof.
  exists [[Fin 0; Fin 1]; [Fin 1]; [Fin 1; Fin 1]; [Fin 2; Fin 1]; [Fin 2]; [Fin 1; Fin 1]], [PPar 0 1 2; PPar 3 4 5]. do 3 eexists. exists 1, 2.
  split; [repeat constructor|].
  assert (E : mean_rows [[Fin 0; Fin 1]; [Fin 2; Fin 1]] = [Fin 1; Fin 1]).
  { rewrite (mean_rows2 [[Fin 0; Fin 1]; [Fin 2; Fin 1]] [(0, 1); (2, 1)] eq_refl) by discriminate. cbn [map fst snd length INR]. unfold Rsum. cbn [fold_right]. replace ((0 + (2 + 0)) / (1 + 1)) with 1 by lra. replace ((1 + (1 + 0)) / (1 + 1)) with 1 by lra. reflexivity. }
  split; [cbn [centre alloc map rd nth a_xy]; rewrite E; reflexivity|]. cbn [a_xy]. split; [reflexivity|]. split; [reflexivity|]. cbn zeta. split; [|auto].
  cbn [opt_step app length]. unfold rd. cbn [nth wr map2 xadd]. replace (1 + 1 + 2) with 4 by ring. now rewrite !Rplus_0_r.
Qed.
Print Assumptions C51_independent_refuted.
