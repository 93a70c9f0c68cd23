(* The linear track fit: C25, C26. *)
From Coq Require Import Psatz.
From Verif Require Import Model.Scatter Spec.ScatterSpec Spec.LayerSpec.
Open Scope R_scope.
Open Scope list_scope.

Definition wt (m : R3) : R := / (snd m * snd m).
Definition S_ (f : R -> R -> R) (ms : list R3) : R := Rsum (map (fun m => f (fst (fst m)) (snd (fst m)) * wt m) ms).

Definition wts_ok (ms : list R3) : Prop := forall m, In m ms -> 0 < snd m.

Lemma wt_pos ms m : wts_ok ms -> In m ms -> 0 < wt m.
Proof. intros H i. apply H in i. unfold wt. apply Rinv_0_lt_compat. nra. Qed.

(* quadratic form of the fit *)
Definition Q (da db : R) ms := Rsum (map (fun m => wt m * sq (da + db * snd (fst m))) ms).

Lemma Q_expand da db ms : Q da db ms = da * da * S_ (fun _ _ => 1) ms + 2 * da * db * S_ (fun _ z => z) ms + db * db * S_ (fun _ z => z * z) ms.
Proof. unfold Q, S_, sq. induction ms as [|m ms IH]; simpl; [ring|]. rewrite IH. ring. Qed.

Lemma Q_nonneg da db ms : wts_ok ms -> 0 <= Q da db ms.
Proof.
  intro H. apply Rsum_nonneg. intros x i. apply in_map_iff in i as [m [<- i]].
  apply (wt_pos ms m H) in i. pose proof (sq_nonneg (da + db * snd (fst m))). nra.
Qed.

Lemma Q_zero da db ms m : wts_ok ms -> Q da db ms = 0 -> In m ms -> da + db * snd (fst m) = 0.
Proof.
  intros H E i. unfold Q in E. induction ms as [|m' ms IH]; [destruct i|].
  simpl in E.
  assert (P : 0 <= Q da db ms) by (apply Q_nonneg; intros ? ?; apply H; right; auto).
  assert (P' : 0 < wt m') by (apply (wt_pos (m' :: ms)); [auto|left; auto]).
  pose proof (sq_nonneg (da + db * snd (fst m'))) as P''.
  fold (Q da db ms) in E.
  assert (P3 : 0 <= wt m' * sq (da + db * snd (fst m'))) by (apply Rmult_le_pos; lra).
  destruct i as [-> |i].
  - assert (E' : wt m * sq (da + db * snd (fst m)) = 0) by lra.
    apply Rmult_integral in E' as [E'|E']; [lra|]. unfold sq in E'. apply Rmult_integral in E'. tauto.
  - apply IH; auto. intros ? ?; apply H; right; auto. unfold Q in *. lra.
Qed.

Lemma Q_pos da db ms : wts_ok ms -> two_heights ms -> (da <> 0 \/ db <> 0) -> 0 < Q da db ms.
Proof.
  intros H (a & b & ia & ib & N) D. destruct (Q_nonneg da db ms H) as [P|P]; [auto|]. exfalso.
  symmetry in P. pose proof (Q_zero da db ms a H P ia). pose proof (Q_zero da db ms b H P ib).
  assert (db * (snd (fst a) - snd (fst b)) = 0) by lra.
  apply Rmult_integral in H2 as [H2|H2]; [subst|]; lra.
Qed.

Lemma chi2_expand a b ms : wts_ok ms ->
  chi2 a b ms = S_ (fun x _ => x * x) ms - 2 * a * S_ (fun x _ => x) ms - 2 * b * S_ Rmult ms + Q a b ms.
Proof.
  unfold chi2, S_, Q, sq, wt. intro H. induction ms as [|[[x z] s] ms IH]; simpl; [ring|].
  rewrite IH by (intros ? ?; apply H; right; auto).
  assert (0 < s) by (apply (H (x, z, s)); left; auto). field. lra.
Qed.

Definition Wof ms := S_ (fun _ _ => 1) ms.
Definition best_a ms := (S_ (fun x _ => x) ms * S_ (fun _ z => z * z) ms - S_ (fun _ z => z) ms * S_ Rmult ms)
  / (Wof ms * S_ (fun _ z => z * z) ms - S_ (fun _ z => z) ms * S_ (fun _ z => z) ms).
Definition best_b ms := (S_ Rmult ms - best_a ms * S_ (fun _ z => z) ms) / S_ (fun _ z => z * z) ms.

Lemma fit_signs ms : wts_ok ms -> two_heights ms ->
  0 < Wof ms /\ 0 < S_ (fun _ z => z * z) ms /\ 0 < Wof ms * S_ (fun _ z => z * z) ms - S_ (fun _ z => z) ms * S_ (fun _ z => z) ms.
Proof.
  intros H T.
  assert (A : 0 < Wof ms). { pose proof (Q_pos 1 0 ms H T ltac:(left; lra)) as P. rewrite Q_expand in P. unfold Wof. lra. }
  assert (B : 0 < S_ (fun _ z => z * z) ms). { pose proof (Q_pos 0 1 ms H T ltac:(right; lra)) as P. rewrite Q_expand in P. lra. }
  split; [auto|]. split; [auto|].
  pose proof (Q_pos (- S_ (fun _ z => z) ms) (Wof ms) ms H T ltac:(right; lra)) as P. rewrite Q_expand in P.
  unfold Wof in *. set (W := S_ (fun _ _ => 1) ms) in *. set (Z := S_ (fun _ z => z) ms) in *. set (ZZ := S_ (fun _ z => z * z) ms) in *.
  assert (P' : 0 < W * (W * ZZ - Z * Z)) by lra. 
  destruct (Rlt_dec 0 (W * ZZ - Z * Z)) as [L|L]; [auto|]. exfalso. nra.
Qed.

Lemma best_is_best ms : wts_ok ms -> two_heights ms -> best_line (best_a ms) (best_b ms) ms.
Proof.
  intros H T. destruct (fit_signs ms H T) as (A & B & D).
  assert (N1 : best_a ms * Wof ms + best_b ms * S_ (fun _ z => z) ms = S_ (fun x _ => x) ms).
  { unfold best_b, best_a. field. split; lra. }
  assert (N2 : best_a ms * S_ (fun _ z => z) ms + best_b ms * S_ (fun _ z => z * z) ms = S_ Rmult ms).
  { unfold best_b. field. lra. }
  assert (K : forall a b, chi2 a b ms = chi2 (best_a ms) (best_b ms) ms + Q (a - best_a ms) (b - best_b ms) ms).
  { intros a b. rewrite !chi2_expand by auto. rewrite !Q_expand. fold (Wof ms). rewrite <- N1, <- N2. ring. }
  split.
  - intros a b. rewrite (K a b). pose proof (Q_nonneg (a - best_a ms) (b - best_b ms) ms H). lra.
  - intros a b E. rewrite K in E.
    destruct (Req_dec a (best_a ms)) as [Ea|Ea], (Req_dec b (best_b ms)) as [Eb|Eb]; auto; exfalso;
      assert (0 < Q (a - best_a ms) (b - best_b ms) ms) by (apply Q_pos; auto; (left; lra) || (right; lra)); lra.
Qed.

(* ---- the computation in the code ---- *)
Lemma p75 : 2 ^ 75 * 2 ^ 75 = 2 ^ 150. Proof. rewrite <- pow_add. reflexivity. Qed.
Lemma p75_pos : 0 < 2 ^ 75. Proof. apply pow_lt; lra. Qed.
Lemma p150_pos : 0 < 2 ^ 150. Proof. apply pow_lt; lra. Qed.

Lemma inv_sq_big s : 2 ^ 75 <= s -> inv_sq (Fin s) = Fin 0.
Proof.
  intro H. unfold inv_sq. cbn [xmul]. pose proof p75_pos. rewrite xdiv_fin by nra.
  replace (Rleb (1 / (s * s)) (/ 2 ^ 150)) with true; [auto|]. symmetry. apply Rleb_true.
  replace (1 / (s * s)) with (/ (s * s)) by (field; nra). apply Rinv_le_contravar; [apply p150_pos|]. rewrite <- p75.
  apply Rmult_le_compat; lra.
Qed.
Lemma inv_sq_small s : 0 < s -> s < 2 ^ 75 -> inv_sq (Fin s) = Fin (/ (s * s)).
Proof.
  intros H0 H. unfold inv_sq. cbn [xmul]. rewrite xdiv_fin by nra.
  replace (1 / (s * s)) with (/ (s * s)) by (field; nra).
  replace (Rleb (/ (s * s)) (/ 2 ^ 150)) with false; [auto|]. symmetry. apply Rleb_false.
  apply Rinv_lt_contravar. apply Rmult_lt_0_compat; [nra|apply p150_pos]. rewrite <- p75. apply Rmult_gt_0_lt_compat; lra.
Qed.
Lemma fmax_big : 2 ^ 75 <= fmax.
Proof.
  unfold fmax. assert (1 <= 2 - / 2 ^ 23). { assert (1 <= 2 ^ 23) by (apply pow_R1_Rle; lra). assert (/ 2 ^ 23 <= / 1) by (apply Rinv_le_contravar; lra). lra. }
  assert (2 ^ 75 <= 2 ^ 127) by (apply Rle_pow; [lra|lia]). pose proof p75_pos. 
  apply Rle_trans with (1 * 2 ^ 127); [lra|]. apply Rmult_le_compat_r; lra.
Qed.
Lemma inv_sq_inf : inv_sq (nan_to_num PInf) = Fin 0.
Proof. cbn [nan_to_num]. apply inv_sq_big, fmax_big. Qed.

Definition deinf (c : R) (a : xr) : xr := if xisinf a then Fin c else a.

Lemma point_weight c x z u : fit_ok x u ->
  exists a, deinf c x = Fin a /\
  ((exists s, used1 x z u = [(a, z, s)] /\ 0 < s /\ inv_sq (nan_to_num u) = Fin (/ (s * s)))
   \/ (used1 x z u = [] /\ inv_sq (nan_to_num u) = Fin 0)).
Proof.
  intros [Hx Hu]. unfold deinf.
  destruct Hu as [-> |(s & -> & s0 & Hs)].
  - destruct x; cbn; try congruence; eexists; (split; [reflexivity|]); right; (split; [reflexivity|apply inv_sq_inf]).
  - cbn [nan_to_num]. destruct (Rlt_dec s (2 ^ 75)) as [L|L].
    + destruct Hs as [Hs|[a ->]]; [lra|]. cbn [xisinf]. exists a. split; [auto|]. left. exists s. unfold used1.
      destruct (Rlt_dec s (2 ^ 75)); [|contradiction]. auto using inv_sq_small.
    + assert (E : used1 x z (Fin s) = []). { unfold used1. destruct x; auto. destruct (Rlt_dec s (2 ^ 75)); [contradiction|auto]. }
      destruct x; cbn [xisinf]; try congruence; eexists; (split; [reflexivity|]); right; (split; [auto|apply inv_sq_big; lra]).
Qed.

Section Axis.
Variables (c : R) (pts : list (xr * R * xr)).
Definition pt' (p : xr * R * xr) : xr * xr * xr := (deinf c (fst (fst p)), Fin (snd (fst p)), nan_to_num (snd p)).
Definition ms' := flat_map (fun p : xr * R * xr => used1 (fst (fst p)) (snd (fst p)) (snd p)) pts.

Lemma sums_fin (f : R -> R -> R) (F : xr -> xr -> xr) :
  (forall x z, F (Fin x) (Fin z) = Fin (f x z)) -> (forall p, In p pts -> fit_ok (fst (fst p)) (snd p)) ->
  xsum (map (fun p : xr * xr * xr => xmul (F (fst (fst p)) (snd (fst p))) (inv_sq (snd p))) (map pt' pts)) = Fin (S_ f ms').
Proof.
  intros HF. unfold ms', S_. induction pts as [|[[x z] u] l IH]; intro H; cbn [map flat_map xsum fold_right]; [reflexivity|].
  unfold xsum in IH. rewrite IH by (intros ? ?; apply H; right; auto).
  assert (Hp : fit_ok x u) by (apply (H (x, z, u)); left; auto).
  destruct (point_weight c x z u Hp) as (a & Ea & [(s & Eu & s0 & Ew)|[Eu Ew]]);
    unfold pt'; cbn [fst snd]; rewrite Ea, HF, Ew, Eu; cbn [xmul xadd app map Rsum fold_right fst snd wt]; unfold wt; cbn [fst snd]; f_equal; lra.
Qed.
Lemma weights_fin : (forall p, In p pts -> fit_ok (fst (fst p)) (snd p)) ->
  xsum (map (fun p : xr * xr * xr => inv_sq (snd p)) (map pt' pts)) = Fin (Wof ms').
Proof.
  unfold ms', Wof, S_. induction pts as [|[[x z] u] l IH]; intro H; cbn [map flat_map xsum fold_right]; [reflexivity|].
  unfold xsum in IH. rewrite IH by (intros ? ?; apply H; right; auto).
  assert (Hp : fit_ok x u) by (apply (H (x, z, u)); left; auto).
  destruct (point_weight c x z u Hp) as (a & Ea & [(s & Eu & s0 & Ew)|[Eu Ew]]);
    unfold pt'; cbn [fst snd]; rewrite Ew, Eu; cbn [xmul xadd app map Rsum fold_right fst snd wt]; unfold wt; cbn [fst snd]; f_equal; lra.
Qed.
Lemma used_pos : (forall p, In p pts -> fit_ok (fst (fst p)) (snd p)) -> wts_ok ms'.
Proof.
  intros H m i. unfold ms' in i. apply in_flat_map in i as [[[x z] u] [i j]]. cbn [fst snd] in j.
  destruct (point_weight c x z u (H _ i)) as (a & Ea & [(s & Eu & s0 & Ew)|[Eu Ew]]); rewrite Eu in j; [|destruct j].
  destruct j as [<-|[]]. auto.
Qed.

Lemma fit_axis_best : (forall p, In p pts -> fit_ok (fst (fst p)) (snd p)) -> two_heights ms' ->
  fit_axis (map pt' pts) = (Fin (best_a ms'), Fin (best_b ms')).
Proof.
  intros H T. pose proof (used_pos H) as P. destruct (fit_signs _ P T) as (A & B & D).
  unfold fit_axis. cbv zeta.
  rewrite (weights_fin H).
  rewrite (sums_fin (fun x _ => x) (fun x _ => x)) by auto.
  rewrite (sums_fin (fun _ z => z) (fun _ z => z)) by auto.
  rewrite (sums_fin Rmult xmul) by auto.
  rewrite (sums_fin (fun _ z => z * z) (fun _ z => xmul z z)) by auto.
  unfold best_a, best_b. unfold best_a.
  set (W := Wof ms') in *. set (X := S_ (fun x _ => x) ms'). set (Z := S_ (fun _ z => z) ms') in *.
  set (XZ := S_ Rmult ms'). set (ZZ := S_ (fun _ z => z * z) ms') in *.
  rewrite !(xdiv_fin _ W) by lra. cbn [xmul xsquare].
  assert (ZZ / W <> 0). { apply Rgt_not_eq. apply Rdiv_lt_0_compat; lra. }
  assert (N : 1 - Z / W * (Z / W) / (ZZ / W) <> 0).
  { replace (1 - Z / W * (Z / W) / (ZZ / W)) with ((W * ZZ - Z * Z) / (W * ZZ)) by (field; split; lra).
    apply Rgt_not_eq. apply Rdiv_lt_0_compat; nra. }
  unfold xsquare. cbn [xmul]. rewrite !(xdiv_fin _ (ZZ / W)) by auto. unfold xsub. cbn [xopp xadd].
  fold (Rminus 1 (Z / W * (Z / W) / (ZZ / W))). rewrite xdiv_fin by auto.
  cbn [xmul xopp xadd]. rewrite xdiv_fin by auto.
  f_equal; f_equal; field; repeat split; try lra.
Qed.
End Axis.

Lemma map2_map_same {A B C D} (f : B -> C -> D) (g : A -> B) (h : A -> C) l : map2 f (map g l) (map h l) = map (fun a => f (g a) (h a)) l.
Proof. induction l; simpl; congruence. Qed.

Lemma trajectory_best lw h0 h1 rest : let hs := h0 :: h1 :: rest in
  (forall h, In h hs -> fit_ok (h_x h) (u_x h) /\ fit_ok (h_y h) (u_y h)) ->
  two_heights (used_x hs) -> two_heights (used_y hs) ->
  trajectory lw (map hit_xyz hs) (map hit_unc hs)
  = Ok (track_on (best_a (used_x hs)) (best_b (used_x hs)) (best_a (used_y hs)) (best_b (used_y hs)) (h_z h0) (h_z h1)).
Proof.
  intros hs H Tx Ty. unfold trajectory. rewrite !map_length, Nat.eqb_refl. cbn [negb]. cbv zeta.
  set (c := (fst lw + snd lw) / 2 / 2).
  assert (Ex : fit_axis (map2 (fun h u : v3 => (vx h, vz h, vx u))
       (map (vmap (fun a => if xisinf a then Fin c else a)) (map hit_xyz hs)) (map (vmap nan_to_num) (map hit_unc hs)))
     = (Fin (best_a (used_x hs)), Fin (best_b (used_x hs)))).
  { rewrite !map_map, map2_map_same. pose (pts := map (fun h => (h_x h, h_z h, u_x h)) hs).
    replace (map _ hs) with (map (pt' c) pts). 2:{ unfold pts. rewrite map_map. apply map_ext. intro h. reflexivity. }
    assert (Em : ms' pts = used_x hs). { unfold ms', pts, used_x. rewrite flat_map_concat_map, map_map, <- flat_map_concat_map. reflexivity. }
    rewrite <- Em. apply fit_axis_best; [|rewrite Em; auto]. intros p i. apply in_map_iff in i as [h [<- i]]. apply H; auto. }
  assert (Ey : fit_axis (map2 (fun h u : v3 => (vy h, vz h, vy u))
       (map (vmap (fun a => if xisinf a then Fin c else a)) (map hit_xyz hs)) (map (vmap nan_to_num) (map hit_unc hs)))
     = (Fin (best_a (used_y hs)), Fin (best_b (used_y hs)))).
  { rewrite !map_map, map2_map_same. pose (pts := map (fun h => (h_y h, h_z h, u_y h)) hs).
    replace (map _ hs) with (map (pt' c) pts). 2:{ unfold pts. rewrite map_map. apply map_ext. intro h. reflexivity. }
    assert (Em : ms' pts = used_y hs). { unfold ms', pts, used_y. rewrite flat_map_concat_map, map_map, <- flat_map_concat_map. reflexivity. }
    rewrite <- Em. apply fit_axis_best; [|rewrite Em; auto]. intros p i. apply in_map_iff in i as [h [<- i]]. apply H; auto. }
  rewrite Ex, Ey. unfold hs. cbn [map]. unfold vmap, hit_xyz. cbn [vz xisinf]. unfold vsub, track_on, fv, xsub. cbn [vx vy vz xmul xadd xopp].
  f_equal. f_equal. f_equal; f_equal; ring.
Qed.

Lemma fit_minimal lw h0 h1 rest : let hs := h0 :: h1 :: rest in
  (forall h, In h hs -> fit_ok (h_x h) (u_x h) /\ fit_ok (h_y h) (u_y h)) ->
  two_heights (used_x hs) -> two_heights (used_y hs) ->
  exists ax bx ay by',
    trajectory lw (map hit_xyz hs) (map hit_unc hs) = Ok (track_on ax bx ay by' (h_z h0) (h_z h1))
    /\ best_line ax bx (used_x hs) /\ best_line ay by' (used_y hs).
Proof.
  intros hs H Tx Ty. exists (best_a (used_x hs)), (best_b (used_x hs)), (best_a (used_y hs)), (best_b (used_y hs)).
  split; [apply trajectory_best; auto|].
  assert (P : wts_ok (used_x hs) /\ wts_ok (used_y hs)).
  { split; intros m i; apply in_flat_map in i as [h [i j]]; destruct (H h i) as [Hx Hy].
    - destruct (point_weight 0 (h_x h) (h_z h) (u_x h) Hx) as (a & Ea & [(s & Eu & s0 & Ew)|[Eu Ew]]); rewrite Eu in j; [destruct j as [<-|[]]; auto|destruct j].
    - destruct (point_weight 0 (h_y h) (h_z h) (u_y h) Hy) as (a & Ea & [(s & Eu & s0 & Ew)|[Eu Ew]]); rewrite Eu in j; [destruct j as [<-|[]]; auto|destruct j]. }
  split; apply best_is_best; tauto.
Qed.

Lemma chi2_line a b ms : (forall x z s, In (x, z, s) ms -> x = a + b * z) -> chi2 a b ms = 0.
Proof.
  unfold chi2. induction ms as [|[[x z] s] ms IH]; intro H; simpl; [auto|]. rewrite IH by (intros; eapply H; right; eauto).
  rewrite (H x z s) by (left; auto). unfold sq, Rdiv. ring.
Qed.

Lemma chi2_nonneg a b ms : 0 <= chi2 a b ms.
Proof. apply Rsum_nonneg. intros x i. apply in_map_iff in i as [[[x' z] s] [<- i]]. apply sq_nonneg. Qed.

Lemma fit_exact lw h0 h1 rest ax bx ay by' : let hs := h0 :: h1 :: rest in
  (forall h, In h hs -> fit_ok (h_x h) (u_x h) /\ fit_ok (h_y h) (u_y h)) ->
  two_heights (used_x hs) -> two_heights (used_y hs) ->
  (forall x z s, In (x, z, s) (used_x hs) -> x = ax + bx * z) ->
  (forall y z s, In (y, z, s) (used_y hs) -> y = ay + by' * z) ->
  trajectory lw (map hit_xyz hs) (map hit_unc hs) = Ok (track_on ax bx ay by' (h_z h0) (h_z h1)).
Proof.
  intros hs H Tx Ty Lx Ly. destruct (fit_minimal lw h0 h1 rest H Tx Ty) as (ax1 & bx1 & ay1 & by1 & E & [Bx Ux] & [By Uy]).
  fold hs in E, Bx, Ux, By, Uy. rewrite E.
  apply chi2_line in Lx. apply chi2_line in Ly.
  assert (ax = ax1 /\ bx = bx1) as [-> ->].
  { apply Ux. pose proof (Bx ax bx). pose proof (chi2_nonneg ax1 bx1 (used_x hs)). lra. }
  assert (ay = ay1 /\ by' = by1) as [-> ->].
  { apply Uy. pose proof (By ay by'). pose proof (chi2_nonneg ay1 by1 (used_y hs)). lra. }
  reflexivity.
Qed.
