(* Pipelines of the edge-detecting ladle inferrer: C107. *)
Require Import Reals Lra Lia.
From Verif Require Import Model.Pipeline Spec.LadleSpec Spec.PipelineSpec Proofs.LadleP Proofs.PipelineP.
From Verif Require Import Base.XR.
Open Scope R_scope.
Open Scope list_scope.

(* C107. Any pipeline of remove_ladle and avg_3d, then avg_layers, then any of avg_1d, the edge kernels, max_sub_min and negative gives, for X0s of any sign,
   a probability for each layer that is left. *)
Theorem C107_distribution :
  forall p3 p1 nz nx ny x, Forall of_cubes p3 -> Forall of_profiles p1 -> cube_shape nz nx ny x ->
  (removals p3 < nz)%nat -> (2 * removals p3 < nx)%nat -> (2 * removals p3 < ny)%nat ->
  exists probs, x02probs_of (p3 ++ AvgLayers :: p1) true x = Ok probs /\ length probs = (nz - removals p3)%nat /\ distribution probs.
Proof.
  intros p3 p1 nz nx ny x H3 H1 S Hz Hx Hy. destruct (pipeline_run p3 p1 nz nx ny x H3 H1 S Hz Hx Hy) as (l & E & L). exists (softmax (map Fin l)). unfold x02probs_of. rewrite E. cbn [bind].
  split; [reflexivity|]. split; [unfold softmax; now rewrite !map_length|]. apply soft_dist. intros ->. cbn in L. lia.
Qed.
Print Assumptions C107_distribution.
(* C107. The default pipeline is the one of C82. *)
Theorem C107_default :
  forall nz nx ny x, (2 <= nz)%nat -> (3 <= nx)%nat -> (3 <= ny)%nat -> cube_shape nz nx ny x ->
  x02probs_of default_pipeline true x = Ok (x02probs x).
Proof.
  intros nz nx ny x Hz Hx Hy S. pose proof (removed_shape nz nx ny x S) as S1. pose proof (averaged_shape (nz - 1) (nx - 2) (ny - 2) _ ltac:(lia) ltac:(lia) S1) as S2.
  unfold x02probs_of, run_steps, default_pipeline. cbn [foldM run_step bind]. rewrite (dims_all _ _ _ _ _ S1) by lia. destruct (Nat.ltb_spec 0 (nz - 1)); [|lia]. destruct (Nat.ltb_spec 0 (nx - 2)); [|lia]. destruct (Nat.ltb_spec 0 (ny - 2)); [|lia]. cbn [andb bind].
  destruct (layers_fin (nz - 1)%nat (nx - 2)%nat (ny - 2)%nat _ ltac:(lia) ltac:(lia) S2) as (l & E & L). unfold x02probs, scores, ridge_1d_0. rewrite E. destruct l as [|v l]; [cbn in L; lia|]. cbn [weights].
  assert (HN : forall q : list xr, length q = length (v :: l) -> exists w r, q = w :: r) by (intros [|w r] Hq; [discriminate|eauto]).
  destruct (HN (map Fin (v :: l)) ltac:(apply map_length)) as (w0 & r0 & E0). rewrite E0. unfold pool_1d at 1. cbv iota. cbn [bind]. rewrite <- E0.
  destruct (HN (avg_1d (map Fin (v :: l)))) as (w1 & r1 & E1). { rewrite avg_1d_fin, map_length. apply avg1_len. } rewrite E1. unfold conv_1d. cbv iota. cbn [bind]. rewrite <- E1.
  destruct (HN (negative (edge_det (-1) 0 (-1) (avg_1d (map Fin (v :: l)))))) as (w2 & r2 & E2). { unfold negative. rewrite map_length, edge_len, avg_1d_fin, map_length. apply avg1_len. } rewrite E2. unfold pool_1d. cbv iota. cbn [bind]. reflexivity.
Qed.
Print Assumptions C107_default.
(* C107. What the steps on profiles do. *)
Theorem C107_steps :
  forall l, l <> [] ->
  (forall k, let '(a, b, c) := weights k in exists l', run_step (EdgeDet k) (T2 (map Fin l)) = Ok (T2 (map Fin l')) /\ length l' = length l /\
     forall i, (i < length l)%nat -> nth i l' 0 = a * left_of l i + b * nth i l 0 + c * right_of l i) /\
  (exists l', run_step MaxSubMin (T2 (map Fin l)) = Ok (T2 (map Fin l')) /\ length l' = length l /\
     forall i hi lo, (i < length l)%nat -> highest l i hi -> lowest l i lo -> nth i l' 0 = hi - lo) /\
  (exists l', run_step Gauss1d (T2 (map Fin l)) = Ok (squeeze_1d (map Fin l')) /\ length l' = length l /\
     forall i, (i < length l)%nat -> nth i l' 0 = (left_of l i + 2 * nth i l 0 + right_of l i) / 4).
Proof.
  intros l N. assert (HN : exists w r, map Fin l = w :: r) by (destruct l; [congruence|cbn; eauto]). destruct HN as (w & r & E). split; [|split].
  - intros k. destruct (weights k) as [[a b] c] eqn:W. exists (edgeR a b c l). cbn [run_step]. rewrite W. unfold conv_1d. rewrite E. cbv iota. rewrite <- E, edge_fin. split; [reflexivity|]. split; [apply edgeR_len|]. intros i Hi. now apply edgeR_nth.
  - destruct (sub_fin l) as (s & Es & Ls). exists s. cbn [run_step]. unfold pool_1d. rewrite E. cbv iota. rewrite <- E, Es. split; [reflexivity|]. split; [exact Ls|]. intros i hi lo Hi H L. pose proof (sub_at l i hi lo Hi H L) as A. rewrite Es, nth_fin in A by lia. now injection A.
  - exists (map (fun v => v / 8) (edgeR 2 4 2 l)). cbn [run_step]. unfold conv_1d. rewrite E. cbv iota. rewrite <- E. split; [|split].
    + unfold gauss_1d. rewrite edge_fin, !map_map. do 2 f_equal. apply map_ext. intros v. apply xdiv_fin. lra.
    + now rewrite map_length, edgeR_len.
    + intros i Hi. rewrite nth_indep with (d' := 0 / 8) by (now rewrite map_length, edgeR_len). rewrite (map_nth (fun v => v / 8)), edgeR_nth by exact Hi. field.
Qed.
Print Assumptions C107_steps.
(* C107. Only ridge_1d_2 and prewit_1d give nothing for every flat profile (laplacian_1d does not). *)
Theorem C107_flat :
  forall k, (forall n v, (0 < n)%nat -> run_step (EdgeDet k) (T2 (repeat (Fin v) n)) = Ok (T2 (repeat (Fin 0) n))) <-> k = Ridge2 \/ k = Prewit.
Proof.
  assert (HR : forall n v, repeat (Fin v) n = map Fin (repeat v n)) by (intros n v; induction n; cbn; congruence).
  assert (HL : forall n v i, (i < n)%nat -> left_of (repeat v n) i = v /\ nth i (repeat v n) 0 = v /\ right_of (repeat v n) i = v).
  { intros n v. assert (HN : forall j, (j < n)%nat -> nth j (repeat v n) 0 = v). { intros j Hj. rewrite nth_indep with (d' := v) by (now rewrite repeat_length). apply nth_repeat. }
    intros i Hi. split; [|split; [auto|]]; unfold left_of, right_of; [destruct i; apply HN; lia|]. rewrite repeat_length. destruct (Nat.ltb_spec (S i) n); apply HN; lia. }
  intros k. split.
  - intros H. specialize (H 1%nat 1 ltac:(lia)). rewrite !HR in H. destruct (C107_steps (repeat 1 1) ltac:(discriminate)) as (A & _). specialize (A k). destruct (weights k) as [[a b] c] eqn:W.
    destruct A as (l' & E & L & A). rewrite E in H. specialize (A 0%nat ltac:(cbn; lia)). injection H as H. rewrite repeat_length in L. destruct l' as [|y [|? ?]]; try discriminate. cbn in H. injection H as ->. cbn in A.
    destruct k; cbn in W; injection W as <- <- <-; auto; lra.
  - intros H n v Hn. rewrite !HR. destruct (C107_steps (repeat v n)) as (A & _); [destruct n; [lia|discriminate]|]. specialize (A k). destruct (weights k) as [[a b] c] eqn:W.
    destruct A as (l' & E & L & A). rewrite E. do 3 f_equal. rewrite repeat_length in L, A. apply nth_ext with (d := 0) (d' := 0); [now rewrite repeat_length|]. intros i Hi. rewrite L in Hi. rewrite A by exact Hi.
    destruct (HL n v i Hi) as (-> & -> & ->). destruct (HL n 0 i Hi) as (_ & -> & _). destruct H as [-> | ->]; cbn in W; injection W as <- <- <-; ring.
Qed.
Print Assumptions C107_flat.
(* C107. gauss_1d removes the axis of the volumes.  As the last step, with at least two layers, the result is the single probability 1, whatever the X0s are;
   followed by any other step but negative, it makes the inferrer fail. *)
Theorem C107_gauss_1d :
  forall p3 p1 s p nz nx ny x, Forall of_cubes p3 -> Forall of_profiles p1 -> cube_shape nz nx ny x ->
  (removals p3 + 1 < nz)%nat -> (2 * removals p3 < nx)%nat -> (2 * removals p3 < ny)%nat ->
  x02probs_of (p3 ++ AvgLayers :: p1 ++ [Gauss1d]) true x = Ok [Fin 1] /\
  (s <> Negative -> exists e, x02probs_of (p3 ++ AvgLayers :: p1 ++ Gauss1d :: s :: p) true x = Err e).
Proof.
  intros p3 p1 s p nz nx ny x H3 H1 S Hz Hx Hy. destruct (pipeline_run p3 p1 nz nx ny x H3 H1 S ltac:(lia) Hx Hy) as (l & E & L).
  assert (EG : forall q, run_steps (p3 ++ AvgLayers :: p1 ++ Gauss1d :: q) (T4 x) = (t <- run_step Gauss1d (T2 (map Fin l)) ;; run_steps q t)).
  { intros q. unfold run_steps in *. replace (p3 ++ AvgLayers :: p1 ++ Gauss1d :: q) with ((p3 ++ AvgLayers :: p1) ++ Gauss1d :: q) by (rewrite <- app_assoc; reflexivity). rewrite foldM_app, E. reflexivity. }
  destruct (C107_steps l) as (_ & _ & l' & EQ & L' & _); [intros ->; cbn in L; lia|]. destruct l' as [|v [|w l']]; [cbn in L'; lia|cbn in L'; lia|]. cbn [map squeeze_1d] in EQ. split.
  - unfold x02probs_of. change [Gauss1d] with (Gauss1d :: @nil step). rewrite EG, EQ. cbn [bind run_steps foldM]. now rewrite softmax_1.
  - intros HS. unfold x02probs_of. rewrite EG, EQ. cbn [bind]. unfold run_steps. cbn [foldM]. destruct s; try congruence; cbn [run_step pool_1d conv_1d bind]; eauto. destruct (weights k) as [[? ?] ?]. cbn [conv_1d bind]. eauto.
Qed.
Print Assumptions C107_gauss_1d.
(* C107. gauss_3d removes the axis of the volumes, too: in place of avg_3d in the default pipeline it makes the inferrer fail for all X0s of at least two layers of 2 x 2 voxels
   inside of the ladle; directly before the end the result is the single probability 1.  Without add_batch_dim the default pipeline always fails. *)
Theorem C107_gauss_3d :
  forall nz nx ny x, (3 <= nz)%nat -> (4 <= nx)%nat -> (4 <= ny)%nat -> cube_shape nz nx ny x ->
  x02probs_of [RemoveLadle; Gauss3d; AvgLayers; Avg1d; EdgeDet Ridge0; Negative; MaxDivMin] true x = Err RuntimeError /\
  x02probs_of [Gauss3d; RemoveLadle; AvgLayers; Avg1d; EdgeDet Ridge0; Negative; MaxDivMin] true x = Err IndexError /\
  x02probs_of [RemoveLadle; Gauss3d; AvgLayers] true x = Ok [Fin 1] /\
  x02probs_of default_pipeline false x = Err IndexError.
Proof.
  intros nz nx ny x Hz Hx Hy S. pose proof (removed_shape nz nx ny x S) as S1. pose proof (gauss_shape (nz - 1) (nx - 2) (ny - 2) _ ltac:(lia) ltac:(lia) S1) as S2.
  assert (G : forall a b c y, (1 < a)%nat -> (1 < b)%nat -> (1 < c)%nat -> cube_shape a b c y -> run_step Gauss3d (T4 y) = Ok (T3 (gauss_3d y))).
  { intros a b c y Ha Hb Hc Sy. cbn [run_step]. rewrite !(dims_all _ _ _ _ _ Sy) by lia. destruct (Nat.ltb_spec 0 a); [|lia]. destruct (Nat.ltb_spec 0 b); [|lia]. destruct (Nat.ltb_spec 0 c); [|lia].
    destruct (Nat.ltb_spec 1 a); [|lia]. destruct (Nat.ltb_spec 1 b); [|lia]. destruct (Nat.ltb_spec 1 c); [|lia]. reflexivity. }
  assert (G1 := G (nz - 1)%nat (nx - 2)%nat (ny - 2)%nat _ ltac:(lia) ltac:(lia) ltac:(lia) S1). assert (G0 := G nz nx ny _ ltac:(lia) ltac:(lia) ltac:(lia) S).
  unfold x02probs_of, run_steps. cbn [foldM]. split; [|split; [|split]].
  - change (run_step RemoveLadle (T4 x)) with (Ok (T4 (remove_ladle x))). cbn [bind]. rewrite G1. cbn [bind run_step pool_1d]. reflexivity.
  - rewrite G0. cbn [bind run_step]. reflexivity.
  - change (run_step RemoveLadle (T4 x)) with (Ok (T4 (remove_ladle x))). cbn [bind]. rewrite G1. cbn [bind run_step]. destruct (layers_fin (nz - 1)%nat (nx - 2)%nat (ny - 2)%nat _ ltac:(lia) ltac:(lia) S2) as (l & E & L). rewrite E. destruct l as [|v l]; [cbn in L; lia|]. cbn [map]. now rewrite softmax_1.
  - unfold default_pipeline. cbn [foldM run_step bind]. reflexivity.
Qed.
Print Assumptions C107_gauss_3d.
(* three layers of 4 x 4 voxels, for the theorems above *)
Definition some_cube : cube := map (fun v => repeat (repeat v 4) 4) [1; 2; 3; 4].
Ltac all_steps := repeat (apply Forall_cons || apply Forall_nil); unfold of_cubes, of_profiles; eauto 6.
Lemma some_shape : cube_shape 4 4 4 some_cube.
Proof. split; [reflexivity|]. unfold some_cube. repeat constructor. Qed.
Example C107_case : exists probs, x02probs_of [RemoveLadle; Avg3d; AvgLayers; Avg1d; EdgeDet Laplacian; MaxSubMin] true some_cube = Ok probs /\ length probs = 3%nat /\ distribution probs.
Proof.
  apply (C107_distribution [RemoveLadle; Avg3d] [Avg1d; EdgeDet Laplacian; MaxSubMin] 4 4 4); [| |apply some_shape|cbn; lia|cbn; lia|cbn; lia].
  1, 2: all_steps.
Qed.
(* C107 is false: with gauss_1d at the end, all ladles give the same single probability, although there are three layers. *)
Theorem C107_layers_refuted :
  exists pipeline x, cube_shape 4 4 4 x /\ In Gauss1d pipeline /\ x02probs_of pipeline true x = Ok [Fin 1] /\
  x02probs_of (removelast pipeline) true x <> Ok [Fin 1] /\
  forall y, cube_shape 4 4 4 y -> x02probs_of pipeline true y = Ok [Fin 1].
Proof.
  exists [RemoveLadle; Avg3d; AvgLayers; EdgeDet Ridge2; Gauss1d], some_cube. split; [apply some_shape|]. split; [cbn; tauto|].
  assert (A : forall y, cube_shape 4 4 4 y -> x02probs_of [RemoveLadle; Avg3d; AvgLayers; EdgeDet Ridge2; Gauss1d] true y = Ok [Fin 1]).
  { intros y Sy. apply (C107_gauss_1d [RemoveLadle; Avg3d] [EdgeDet Ridge2] Avg1d [] 4 4 4 y); [all_steps|all_steps|exact Sy|cbn; lia|cbn; lia|cbn; lia]. }
  split; [apply A, some_shape|]. split; [|exact A]. cbn [removelast].
  destruct (C107_distribution [RemoveLadle; Avg3d] [EdgeDet Ridge2] 4 4 4 some_cube) as (probs & E & L & _); [all_steps|all_steps|apply some_shape|cbn; lia|cbn; lia|cbn; lia|].
  cbn [app] in E. rewrite E. intros [= ->]. discriminate L.
Qed.
Print Assumptions C107_layers_refuted.
