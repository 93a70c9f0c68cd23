(* Lemmas about the pipelines of the ladle inferrer. *)
Require Import Reals Lra Lia.
From Verif Require Import Model.X0Infer Model.Pipeline Spec.LadleSpec Spec.PipelineSpec Proofs.LadleP Proofs.PoolP Proofs.BlockP Proofs.LossP Proofs.GenP.
From Verif Require Import Base.XR.
Open Scope R_scope.
Open Scope list_scope.

(* shapes *)
Lemma removed_shape nz nx ny x : cube_shape nz nx ny x -> cube_shape (nz - 1) (nx - 2) (ny - 2) (remove_ladle x).
Proof.
  intros [L F]. rewrite Forall_forall in F. split; [unfold remove_ladle; rewrite map_length; destruct x; cbn in *; lia|]. apply Forall_forall. intros l Hl. apply in_map_iff in Hl as (l0 & <- & Hl). apply tl_in in Hl. destruct (F l0 Hl) as [A B]. split; [now rewrite map_length, inner_len, A|].
  apply Forall_forall. intros r Hr. apply in_map_iff in Hr as (r0 & <- & Hr). rewrite inner_len. apply inner_in in Hr. rewrite Forall_forall in B. now rewrite (B r0 Hr).
Qed.
Lemma any_bounds (l : list R) : exists lo hi, forall x, In x l -> lo <= x <= hi.
Proof.
  induction l as [|x l (lo & hi & B)]; [exists 0, 0; intros x []|]. exists (Rmin x lo), (Rmax x hi). intros y [<-|Hy]; [split; [apply Rmin_l|apply Rmax_l]|]. specialize (B y Hy).
  split; [eapply Rle_trans; [apply Rmin_r|lra]|eapply Rle_trans; [|apply Rmax_r]; lra].
Qed.
Lemma averaged_shape nz nx ny x : (0 < nz)%nat -> (0 < nx)%nat -> cube_shape nz nx ny x -> cube_shape nz nx ny (avg_3d x).
Proof.
  intros Hz Hx S. unfold avg_3d. rewrite (shape_dims nz nx ny x S Hz Hx). set (f := concat (map (fun l => concat l) x)). pose proof (flat_len nz nx ny x S : length f = _) as Lf.
  destruct (any_bounds f) as (lo & hi & B). destruct (pool_in nz nx ny f lo hi Lf B) as [Lp _]. set (p := avg_pool nz nx ny f) in *.
  destruct (chunk_spec (nx * ny) nz p) as (A1 & A2 & _); [rewrite Lp, Lf; ring|]. rewrite Forall_forall in A2. split; [now rewrite map_length|].
  apply Forall_forall. intros l Hl. apply in_map_iff in Hl as (c & <- & Hc). destruct (chunk_spec ny nx c ltac:(rewrite A2 by exact Hc; reflexivity)) as (C1 & C2 & _). split; assumption.
Qed.
Lemma layers_fin nz nx ny x : (0 < nx)%nat -> (0 < ny)%nat -> cube_shape nz nx ny x -> exists l, avg_layers x = map Fin l /\ length l = nz.
Proof.
  intros Hx Hy [L F]. exists (map (fun l => Rsum (concat l) / INR (length (concat l))) x). rewrite map_length. split; [|exact L].
  unfold avg_layers. rewrite map_map. apply map_ext_in. intros l Hl. apply xdiv_fin. apply not_0_INR. rewrite Forall_forall in F. destruct (F l Hl) as [A B]. rewrite (concat_len ny) by exact B. rewrite A. nia.
Qed.
Lemma gauss_shape nz nx ny x : (0 < nz)%nat -> (0 < nx)%nat -> cube_shape nz nx ny x -> cube_shape nz nx ny (gauss_3d x).
Proof.
  intros Hz Hx S. unfold gauss_3d. rewrite (shape_dims nz nx ny x S Hz Hx). split; [now rewrite map_length, seq_length|].
  apply Forall_forall. intros l Hl. apply in_map_iff in Hl as (k & <- & _). split; [now rewrite map_length, seq_length|].
  apply Forall_forall. intros r Hr. apply in_map_iff in Hr as (i & <- & _). now rewrite map_length, seq_length.
Qed.

Lemma foldM_app {S O} (f : S -> O -> res S) l l' s : foldM f (l ++ l') s = (s' <- foldM f l s ;; foldM f l' s').
Proof. revert s. induction l as [|o l IH]; intros s; [reflexivity|]. cbn [app foldM]. destruct (f s o); [cbn [bind]; apply IH|reflexivity]. Qed.
Lemma dims_all P nz nx ny x : cube_shape nz nx ny x -> (0 < nz)%nat -> (0 < nx)%nat -> all_dims P x = P nz && P nx && P ny.
Proof. intros S Hz Hx. unfold all_dims. now rewrite (shape_dims nz nx ny x S Hz Hx). Qed.
(* steps on cubes *)
Lemma cubes_run p : Forall of_cubes p -> forall nz nx ny x, cube_shape nz nx ny x -> (removals p < nz)%nat -> (2 * removals p < nx)%nat -> (2 * removals p < ny)%nat ->
  exists y, run_steps p (T4 x) = Ok (T4 y) /\ cube_shape (nz - removals p) (nx - 2 * removals p) (ny - 2 * removals p) y.
Proof.
  unfold run_steps. induction 1 as [|s p Hs Hp IH]; intros nz nx ny x S Hz Hx Hy; cbn [foldM].
  - exists x. split; [reflexivity|]. unfold removals. cbn [filter length]. now rewrite !Nat.mul_0_r, !Nat.sub_0_r.
  - destruct Hs as [-> | ->]; cbn [run_step bind].
    + change (removals (RemoveLadle :: p)) with (1 + removals p)%nat in *. destruct (IH _ _ _ _ (removed_shape _ _ _ _ S)) as (y & E & Sy); [lia..|]. exists y. split; [exact E|].
      replace (nz - (1 + removals p))%nat with (nz - 1 - removals p)%nat by lia. replace (nx - 2 * (1 + removals p))%nat with (nx - 2 - 2 * removals p)%nat by lia. replace (ny - 2 * (1 + removals p))%nat with (ny - 2 - 2 * removals p)%nat by lia. exact Sy.
    + change (removals (Avg3d :: p)) with (removals p) in *. rewrite (dims_all _ nz nx ny x S) by lia. destruct (Nat.ltb_spec 0 nz); [|lia]. destruct (Nat.ltb_spec 0 nx); [|lia]. destruct (Nat.ltb_spec 0 ny); [|lia]. cbn [andb bind].
      apply IH; [apply averaged_shape; [lia|lia|exact S]|lia..].
Qed.

(* windows of profiles *)
Lemma pick_win_eq l i : (i < length l)%nat -> forall v, In v (pick_win l i) <-> v = left_of l i \/ v = nth i l 0 \/ v = right_of l i.
Proof.
  intros Hi v. unfold pick_win. rewrite in_map_iff. split.
  - intros (k & <- & Hk). unfold around in Hk. apply filter_In in Hk as [Hk B]. apply in_seq in Hk. apply andb_true_iff in B as [B1 B2]. apply Nat.leb_le in B1, B2. unfold left_of, right_of.
    destruct (Nat.eq_dec k i) as [->|N]; [auto|]. destruct (Nat.eq_dec k (S i)) as [->|N']; [destruct (Nat.ltb_spec (S i) (length l)); [auto|lia]|]. left. destruct i as [|j]; [lia|]. f_equal. lia.
  - assert (A : forall k, (k < length l)%nat -> (k <= i + 1)%nat -> (i <= k + 1)%nat -> exists x, nth x l 0 = nth k l 0 /\ In x (around i (length l))).
    { intros k K1 K2 K3. exists k. split; [reflexivity|]. unfold around. apply filter_In. split; [apply in_seq; lia|]. apply andb_true_iff. split; apply Nat.leb_le; lia. }
    unfold left_of, right_of. intros [-> | [-> | ->]].
    + destruct i as [|j]; apply A; lia.
    + apply A; lia.
    + destruct (Nat.ltb_spec (S i) (length l)); apply A; lia.
Qed.
Lemma sub_len x : length (max_sub_min x) = length x.
Proof. unfold max_sub_min, pool_max. rewrite map_length, combine_length, !map_length, !seq_length, ?map_length. apply Nat.min_id. Qed.
Lemma sub_at l i hi lo : (i < length l)%nat -> highest l i hi -> lowest l i lo -> nth i (max_sub_min (map Fin l)) NaN = Fin (hi - lo).
Proof.
  intros Hi (Ih & H1 & H2 & H3) (Il & L1 & L2 & L3). unfold max_sub_min, pool_max. rewrite map_opp, !map_length, combine_map2, map_map. cbn [fst snd].
  set (g := fun x => xsub (fold_right xmax2 NInf (window (map Fin l) x)) (xopp (fold_right xmax2 NInf (window (map Fin (map Ropp l)) x)))).
  rewrite nth_indep with (d' := g 0%nat) by (now rewrite map_length, seq_length). rewrite (map_nth g). rewrite seq_nth by exact Hi. unfold g. rewrite Nat.add_0_l, !window_fin, pick_win_opp.
  rewrite (fold_max_is hi); [|now apply pick_win_eq|intros z Hz; apply pick_win_eq in Hz; [|exact Hi]; destruct Hz as [-> | [-> | ->]]; assumption].
  rewrite (fold_max_is (- lo)); [|apply in_map; now apply pick_win_eq|intros z Hz; apply in_map_iff in Hz as (y & <- & Hy); apply pick_win_eq in Hy; [|exact Hi]; destruct Hy as [-> | [-> | ->]]; lra].
  cbn [xopp xsub xadd]. f_equal. ring.
Qed.
Lemma has_highest l i : exists v, highest l i v.
Proof.
  unfold highest. exists (Rmax (left_of l i) (Rmax (nth i l 0) (right_of l i))). split; [|split; [apply Rmax_l|split; (eapply Rle_trans; [|apply Rmax_r]); [apply Rmax_l|apply Rmax_r]]].
  unfold Rmax at 1 3 5. destruct (Rle_dec (left_of l i) (Rmax (nth i l 0) (right_of l i))); [right|auto]. unfold Rmax. destruct (Rle_dec (nth i l 0) (right_of l i)); auto.
Qed.
Lemma has_lowest l i : exists v, lowest l i v.
Proof.
  unfold lowest. exists (Rmin (left_of l i) (Rmin (nth i l 0) (right_of l i))). split; [|split; [apply Rmin_l|split; (eapply Rle_trans; [apply Rmin_r|]); [apply Rmin_l|apply Rmin_r]]].
  unfold Rmin at 1 3 5. destruct (Rle_dec (left_of l i) (Rmin (nth i l 0) (right_of l i))); [auto|right]. unfold Rmin. destruct (Rle_dec (nth i l 0) (right_of l i)); auto.
Qed.
Lemma edge_len a b c x : length (edge_det a b c x) = length x. Proof. unfold edge_det. now rewrite map_length, seq_length. Qed.
Definition edgeR (a b c : R) (l : list R) : list R := map (fun i => a * left_of l i + b * nth i l 0 + c * right_of l i) (seq 0 (length l)).
Lemma edge_fin a b c l : edge_det a b c (map Fin l) = map Fin (edgeR a b c l).
Proof.
  unfold edge_det, edgeR. rewrite map_map, map_length. apply map_ext_in. intros i Hi. apply in_seq in Hi. rewrite !nth_fin by lia. cbn [xmul xadd]. do 3 f_equal; [f_equal|]; f_equal.
  - unfold left_of. destruct i as [|j]; [reflexivity|]. f_equal. lia.
  - unfold right_of. destruct (Nat.ltb_spec (S i) (length l)); f_equal; lia.
Qed.
Lemma edgeR_len a b c l : length (edgeR a b c l) = length l. Proof. unfold edgeR. now rewrite map_length, seq_length. Qed.
Lemma edgeR_nth a b c l i : (i < length l)%nat -> nth i (edgeR a b c l) 0 = a * left_of l i + b * nth i l 0 + c * right_of l i.
Proof.
  intros Hi. unfold edgeR. set (g := fun i => a * left_of l i + b * nth i l 0 + c * right_of l i). rewrite nth_indep with (d' := g 0%nat) by (now rewrite map_length, seq_length). rewrite (map_nth g), seq_nth by exact Hi. reflexivity.
Qed.
Lemma sub_fin l : exists s, max_sub_min (map Fin l) = map Fin s /\ length s = length l.
Proof.
  destruct (list_fin (max_sub_min (map Fin l)) (fun _ => True)) as (s & E & _).
  - intros i Hi. rewrite sub_len, map_length in Hi. destruct (has_highest l i) as (hi & H). destruct (has_lowest l i) as (lo & L). exists (hi - lo). split; [now apply sub_at|exact I].
  - exists s. split; [exact E|]. apply (f_equal (@length xr)) in E. now rewrite sub_len, !map_length in E.
Qed.
(* steps on profiles *)
Lemma profile_step s l : of_profiles s -> l <> [] -> exists l', run_step s (T2 (map Fin l)) = Ok (T2 (map Fin l')) /\ length l' = length l.
Proof.
  intros H N. destruct l as [|v l]; [congruence|]. destruct H as [-> | [(k & ->) | [-> | ->]]]; cbn [run_step].
  - unfold pool_1d. change (map Fin (v :: l)) with (Fin v :: map Fin l). cbv iota. change (Fin v :: map Fin l) with (map Fin (v :: l)). rewrite avg_1d_fin. eexists. split; [reflexivity|]. apply avg1_len.
  - destruct (weights k) as [[a b] c]. unfold conv_1d. change (map Fin (v :: l)) with (Fin v :: map Fin l). cbv iota. change (Fin v :: map Fin l) with (map Fin (v :: l)). rewrite edge_fin. eexists. split; [reflexivity|]. apply edgeR_len.
  - unfold pool_1d. change (map Fin (v :: l)) with (Fin v :: map Fin l). cbv iota. change (Fin v :: map Fin l) with (map Fin (v :: l)). destruct (sub_fin (v :: l)) as (s & E & L). rewrite E. now exists s.
  - unfold negative. rewrite map_opp. eexists. split; [reflexivity|]. apply map_length.
Qed.
Lemma profiles_run p : Forall of_profiles p -> forall l, l <> [] -> exists l', run_steps p (T2 (map Fin l)) = Ok (T2 (map Fin l')) /\ length l' = length l.
Proof.
  unfold run_steps. induction 1 as [|s p Hs Hp IH]; intros l N; cbn [foldM]; [now exists l|]. destruct (profile_step s l Hs N) as (l1 & E & L1). rewrite E. cbn [bind].
  destruct (IH l1) as (l' & E' & L'); [intros ->; destruct l; [congruence|discriminate]|]. exists l'. split; [exact E'|congruence].
Qed.
Lemma pipeline_run p3 p1 nz nx ny x : Forall of_cubes p3 -> Forall of_profiles p1 -> cube_shape nz nx ny x -> (removals p3 < nz)%nat -> (2 * removals p3 < nx)%nat -> (2 * removals p3 < ny)%nat ->
  exists l, run_steps (p3 ++ AvgLayers :: p1) (T4 x) = Ok (T2 (map Fin l)) /\ length l = (nz - removals p3)%nat.
Proof.
  intros H3 H1 S Hz Hx Hy. destruct (cubes_run p3 H3 nz nx ny x S Hz Hx Hy) as (y & E & Sy). destruct (layers_fin (nz - removals p3)%nat (nx - 2 * removals p3)%nat (ny - 2 * removals p3)%nat y ltac:(lia) ltac:(lia) Sy) as (l & El & Ll).
  destruct (profiles_run p1 H1 l) as (l' & E' & L'); [intros ->; cbn in Ll; lia|]. exists l'. split; [|congruence]. unfold run_steps in *. rewrite foldM_app, E. cbn [bind foldM run_step]. rewrite El. exact E'.
Qed.
Lemma softmax_1 v : softmax [Fin v] = [Fin 1].
Proof.
  unfold softmax. cbn [fold_right map]. unfold xmax2. cbn [xisnan orb xlt]. replace (xsub (Fin v) (Fin v)) with (Fin 0) by (cbn; f_equal; ring). cbn [xexp]. rewrite exp_0. cbn [xtotal fold_right xadd].
  replace (1 + 0) with 1 by ring. rewrite xdiv_fin by lra. do 2 f_equal. field.
Qed.
