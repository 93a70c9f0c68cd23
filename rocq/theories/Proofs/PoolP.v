(* Averaging over neighbouring voxels. *)
Require Import Reals Lra Lia.
From Verif Require Import Model.X0Infer Spec.PoolSpec Proofs.VoxelProbP Proofs.BlockP Proofs.VolumeP.
Open Scope R_scope.
Open Scope list_scope.

Lemma around_close i n : around i n = filter (close i) (seq 0 n).
Proof.
  unfold around, close. apply filter_ext. intros k.
  destruct (Z.leb_spec (Z.abs (Z.of_nat i - Z.of_nat k)) 1).
  - rewrite !(proj2 (Nat.leb_le _ _)) by lia. reflexivity.
  - destruct (Nat.leb_spec k (i + 1)); [|reflexivity]. destruct (Nat.leb_spec i (k + 1)); [lia|reflexivity].
Qed.
Lemma filter_flat {A B} (p : B -> bool) (g : A -> list B) l : filter p (flat_map g l) = flat_map (fun a => filter p (g a)) l.
Proof. induction l as [|a l IH]; [reflexivity|]. cbn [flat_map]. rewrite filter_app, IH. reflexivity. Qed.
Lemma map_flat {A B C} (f : B -> C) (g : A -> list B) l : map f (flat_map g l) = flat_map (fun a => map f (g a)) l.
Proof. induction l as [|a l IH]; [reflexivity|]. cbn [flat_map]. rewrite map_app, IH. reflexivity. Qed.
Lemma flat_filter {A B} (p : A -> bool) (g : A -> list B) l : flat_map g (filter p l) = flat_map (fun a => if p a then g a else []) l.
Proof. induction l as [|a l IH]; [reflexivity|]. cbn [flat_map filter]. destruct (p a); cbn [flat_map app]; rewrite IH; reflexivity. Qed.
Lemma flat_ext {A B} (f g : A -> list B) l : (forall a, f a = g a) -> flat_map f l = flat_map g l.
Proof. intros H. induction l as [|a l IH]; [reflexivity|]. cbn [flat_map]. rewrite H, IH. reflexivity. Qed.
Lemma flat_nil {A B} (l : list A) : flat_map (fun _ => @nil B) l = [].
Proof. induction l; auto. Qed.
Lemma filter_map_c {A B} (p : B -> bool) (f : A -> B) l : filter p (map f l) = map f (filter (fun a => p (f a)) l).
Proof. induction l as [|a l IH]; [reflexivity|]. cbn [map filter]. destruct (p (f a)); cbn [map]; rewrite IH; reflexivity. Qed.
Lemma filter_false {A} (l : list A) : filter (fun _ => false) l = [].
Proof. induction l; auto. Qed.

Lemma window_cells nz nx ny k i j l :
  flat_map (fun k' => flat_map (fun i' => map (fun j' => nth ((k' * nx + i') * ny + j') l 0) (around j ny)) (around i nx)) (around k nz)
  = map (at_cell nx ny l) (filter (touching (k, i, j)) (cells nz nx ny)).
Proof.
  rewrite !around_close. rewrite flat_filter. unfold cells. rewrite filter_flat, map_flat. apply flat_ext. intros k'.
  destruct (close k k') eqn:Ek.
  - rewrite flat_filter. rewrite filter_flat, map_flat. apply flat_ext. intros i'. rewrite filter_map_c, map_map. unfold touching. rewrite Ek.
    destruct (close i i') eqn:Ei; cbn [andb at_cell].
    + reflexivity.
    + rewrite filter_false. reflexivity.
  - symmetry. rewrite filter_flat, map_flat. rewrite <- (flat_nil (seq 0 nx)). apply flat_ext. intros i'. rewrite filter_map_c. unfold touching. rewrite Ek.
    cbn [andb]. rewrite filter_false. reflexivity.
Qed.

Lemma cells_in nz nx ny c : In c (cells nz nx ny) <-> (let '(k, i, j) := c in k < nz /\ i < nx /\ j < ny)%nat.
Proof.
  destruct c as [[k i] j]. unfold cells. rewrite in_flat_map. split.
  - intros (k' & Ik & H). apply in_flat_map in H as (i' & Ii & H). apply in_map_iff in H as (j' & E & Ij). injection E as -> -> ->. apply in_seq in Ik, Ii, Ij. lia.
  - intros (Hk & Hi & Hj). exists k. split; [apply in_seq; lia|]. apply in_flat_map. exists i. split; [apply in_seq; lia|].
    apply in_map_iff. exists j. split; [reflexivity|apply in_seq; lia].
Qed.
Lemma nth_error_seq n i : (i < n)%nat -> nth_error (seq 0 n) i = Some i.
Proof. intros H. rewrite (nth_error_nth' _ 0%nat) by (rewrite seq_length; exact H). rewrite seq_nth by exact H. reflexivity. Qed.

Lemma pool_exact nz nx ny l c : In c (cells nz nx ny) ->
  at_cell nx ny (avg_pool nz nx ny l) c = average (map (at_cell nx ny l) (filter (touching c) (cells nz nx ny))).
Proof.
  intros I. apply cells_in in I. destruct c as [[k i] j]. destruct I as (Hk & Hi & Hj). unfold at_cell at 1, avg_pool.
  match goal with |- nth _ (flat_map ?f _) _ = _ => set (row := f) end.
  assert (Lr : forall a, length (row a) = (nx * ny)%nat).
  { intros a. unfold row. rewrite (length_flat_const _ ny) by (intro; rewrite map_length, seq_length; auto). rewrite seq_length. reflexivity. }
  destruct (flat_map_nth row (nx * ny) (seq 0 nz)) as [_ Hn]; [auto|].
  apply nth_error_nth. replace ((k * nx + i) * ny + j)%nat with (k * (nx * ny) + (i * ny + j))%nat by ring.
  rewrite (Hn k (i * ny + j)%nat k); [|nia|apply nth_error_seq; exact Hk]. unfold row.
  match goal with |- nth_error (flat_map ?f _) _ = _ => destruct (flat_map_nth f ny (seq 0 nx)) as [_ Hn2]; [intros; rewrite map_length, seq_length; reflexivity|] end.
  rewrite (Hn2 i j i); [|exact Hj|apply nth_error_seq; exact Hi].
  rewrite nth_error_map, nth_error_seq by exact Hj. cbn [option_map]. rewrite window_cells. reflexivity.
Qed.
