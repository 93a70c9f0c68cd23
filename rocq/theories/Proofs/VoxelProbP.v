(* Probabilities of voxels. *)
From Coq Require Import Psatz Lia ZArith.
From Verif Require Import Model.X0Infer Spec.VolumeSpec Spec.InferSpec Proofs.VolumeP Proofs.WAvgP.
Open Scope R_scope.
Open Scope list_scope.

Lemma sum_flat {A} (f : A -> list R) l : Rsum (flat_map f l) = Rsum (map (fun a => Rsum (f a)) l).
Proof. induction l as [|a l IH]; simpl; [auto|]. rewrite Rsum_app, IH. reflexivity. Qed.
Lemma telescope (F : nat -> R) n : Rsum (map (fun i => F (S i) - F i) (seq 0 n)) = F n - F 0%nat.
Proof.
  induction n as [|n IH]; [simpl; lra|]. rewrite seq_S, map_app, Rsum_app, IH. cbn [map Rsum plus]. lra.
Qed.
Lemma length_flat_const {A B} (f : A -> list B) n l : (forall a, List.length (f a) = n) -> List.length (flat_map f l) = (List.length l * n)%nat.
Proof. intro H. induction l as [|a l IH]; simpl; [auto|]. rewrite app_length, H, IH. auto. Qed.
Lemma map_flat {A B C} (h : B -> C) (f : A -> list B) l : map h (flat_map f l) = flat_map (fun a => map h (f a)) l.
Proof. induction l as [|a l IH]; simpl; [auto|]. rewrite map_app, IH. reflexivity. Qed.

Lemma zxy_length {A} nx ny nz (d : A) l : List.length (to_zxy nx ny nz d l) = (nx * ny * nz)%nat.
Proof.
  unfold to_zxy. rewrite (length_flat_const _ (nx * ny)).
  - rewrite seq_length. lia.
  - intro k. rewrite (length_flat_const _ ny) by (intro; rewrite map_length, seq_length; auto). rewrite seq_length. auto.
Qed.
Lemma zxy_nth {A} nx ny nz (d : A) l i j k : (i < nx)%nat -> (j < ny)%nat -> (k < nz)%nat ->
  nth_error (to_zxy nx ny nz d l) ((k * nx + i) * ny + j) = Some (nth ((i * ny + j) * nz + k) l d).
Proof.
  intros I J K. unfold to_zxy.
  set (row := fun k i => map (fun j => nth ((i * ny + j) * nz + k) l d) (seq 0 ny)).
  set (plane := fun k => flat_map (row k) (seq 0 nx)).
  assert (forall k i, List.length (row k i) = ny) as Lr by (intros; unfold row; rewrite map_length, seq_length; auto).
  assert (forall k, List.length (plane k) = (nx * ny)%nat) as Lp by (intro k'; unfold plane; rewrite (length_flat_const _ ny), seq_length; auto).
  replace ((k * nx + i) * ny + j)%nat with (k * (nx * ny) + (i * ny + j))%nat by ring.
  destruct (flat_map_nth plane (nx * ny) (seq 0 nz) (fun a _ => Lp a)) as [_ N].
  change (nth_error (flat_map plane (seq 0 nz)) (k * (nx * ny) + (i * ny + j)) = Some (nth ((i * ny + j) * nz + k) l d)).
  assert (i * ny + j < nx * ny)%nat by (assert (S i * ny <= nx * ny)%nat by (apply Nat.mul_le_mono_r; lia); simpl in *; lia).
  rewrite (N k _ k); [|auto|rewrite nth_error_seq by auto; auto]. unfold plane at 1.
  destruct (flat_map_nth (row k) ny (seq 0 nx) (fun a _ => Lr k a)) as [_ N'].
  rewrite (N' i j i); [|auto|rewrite nth_error_seq by auto; auto]. unfold row. rewrite nth_error_map, nth_error_seq by auto. reflexivity.
Qed.

Lemma mass_nonneg cdf l u lo hi : is_cdf cdf -> 0 <= u -> lo <= hi -> 0 <= mass cdf l u lo hi <= 1.
Proof.
  intros C U H. unfold mass. destruct (C l (u + 1 / 10000000)) as [B M]; [lra|]. pose proof (M lo hi H). pose proof (B lo). pose proof (B hi). lra.
Qed.
Lemma grid_stack ls s m nx ny nz : stack ls s m nx ny nz -> exists es, grid_of ls = Ok (Grid nx ny nz s es) /\ List.length es = (nx * ny * nz)%nat
  /\ forall i j k, (i < nx)%nat -> (j < ny)%nat -> (k < nz)%nat ->
       nth_error es ((i * ny + j) * nz + k) = Some (INR i * s, INR j * s, IZR (m + Z.of_nat k) * s).
Proof.
  intro St. destruct (edges_spec _ _ _ _ _ _ St) as (es & E & L & N). destruct (stack_ends _ _ _ _ _ _ St) as (La & El & Es & Ex & Ey & Ez).
  destruct St as (Hs & Hn & Hpos & Hk). exists es. split; [|split; auto].
  - unfold grid_of. rewrite El. cbn [bind]. rewrite E. cbn [bind]. rewrite Ex, Ey, Es, Hn.
    assert (forall r, r * s / s = r) as Q by (intro; field; lra). rewrite !Q, !INR_IZR_INZ, !round_half_even_int, !Nat2Z.id. reflexivity.
  - intros i j k I J K. destruct (nth_error (rev (passives ls)) k) as [L0|] eqn:E0.
    + rewrite (N i j k L0) by auto. destruct (Hk k L0 E0) as (_ & _ & _ & ->). reflexivity.
    + apply nth_error_None in E0. rewrite rev_length, Hn in E0. lia.
Qed.

Lemma probs_spec ls s m nx ny nz cdf p u var unc : stack ls s m nx ny nz -> is_cdf cdf -> nonneg3 u ->
  three var = Some p -> three unc = Some u ->
  exists g ps, grid_of ls = Ok g /\ muon_probs cdf g var unc = Ok (map Fin ps) /\ List.length ps = (nx * ny * nz)%nat
  /\ (forall i j k, (i < nx)%nat -> (j < ny)%nat -> (k < nz)%nat ->
        nth_error ps ((k * nx + i) * ny + j)
        = Some (mass3 cdf p u (INR i * s, INR j * s, IZR (m + Z.of_nat k) * s) (INR (S i) * s, INR (S j) * s, IZR (m + Z.of_nat (S k)) * s) + 1 / 1000000000000000))
  /\ Forall (fun q => 0 < q) ps
  /\ Rsum ps = mass3 cdf p u (0, 0, IZR m * s) (INR nx * s, INR ny * s, IZR (m + Z.of_nat nz) * s) + INR (nx * ny * nz) * (1 / 1000000000000000).
Proof.
  intros St C U Tv Tu. destruct (grid_stack _ _ _ _ _ _ St) as (es & G & L & N). assert (0 < s) as S0 by (destruct St; auto).
  eexists. exists (map (fun w => w + 1 / 1000000000000000) (to_zxy nx ny nz 0 (map (voxel_prob cdf s p u) es))).
  split; [exact G|]. unfold muon_probs. rewrite Tv, Tu. cbn [g_nx g_ny g_nz g_size g_edges].
  assert (scales_ok u = true) as ->.
  { destruct u as [[x y] z]. destruct U as (? & ? & ?). unfold scales_ok. rewrite !(proj2 (Rltb_true _ _)) by lra. reflexivity. }
  split; [rewrite map_map; reflexivity|]. split; [rewrite map_length; apply zxy_length|].
  set (q := fun i j k => mass3 cdf p u (INR i * s, INR j * s, IZR (m + Z.of_nat k) * s) (INR (S i) * s, INR (S j) * s, IZR (m + Z.of_nat (S k)) * s)).
  assert (forall i j k, (i < nx)%nat -> (j < ny)%nat -> (k < nz)%nat -> nth ((i * ny + j) * nz + k) (map (voxel_prob cdf s p u) es) 0 = q i j k) as Q.
  { intros i j k I J K. apply nth_error_nth. rewrite nth_error_map, N by auto. cbn [option_map]. f_equal. unfold q, voxel_prob, mass3, mass.
    destruct p as [[px py] pz], u as [[ux uy] uz].
    replace (INR i * s + s) with (INR (S i) * s) by (rewrite S_INR; ring). replace (INR j * s + s) with (INR (S j) * s) by (rewrite S_INR; ring).
    replace (IZR (m + Z.of_nat k) * s + s) with (IZR (m + Z.of_nat (S k)) * s) by (rewrite !plus_IZR, <- !INR_IZR_INZ, S_INR; ring). reflexivity. }
  split; [|split].
  - intros i j k I J K. rewrite nth_error_map, zxy_nth, Q by auto. reflexivity.
  - apply Forall_forall. intros w I. apply in_map_iff in I as (v & <- & I). unfold to_zxy in I.
    apply in_flat_map in I as (k & Ik & I). apply in_flat_map in I as (i & Ii & I). apply in_map_iff in I as (j & <- & Ij).
    apply in_seq in Ik, Ii, Ij. rewrite Q by lia. unfold q, mass3. destruct p as [[px py] pz], u as [[ux uy] uz]. destruct U as (Ux & Uy & Uz).
    assert (INR i * s <= INR (S i) * s) by (apply Rmult_le_compat_r; [lra|apply le_INR; lia]).
    assert (INR j * s <= INR (S j) * s) by (apply Rmult_le_compat_r; [lra|apply le_INR; lia]).
    assert (IZR (m + Z.of_nat k) * s <= IZR (m + Z.of_nat (S k)) * s) by (apply Rmult_le_compat_r; [lra|apply IZR_le; lia]).
    enough (0 <= mass cdf px ux (INR i * s) (INR (S i) * s) * mass cdf py uy (INR j * s) (INR (S j) * s) * mass cdf pz uz (IZR (m + Z.of_nat k) * s) (IZR (m + Z.of_nat (S k)) * s)) by lra.
    repeat apply Rmult_le_pos; apply mass_nonneg; auto.
  - rewrite (Rsum_map_plus (fun w => w) (fun _ => 1 / 1000000000000000)), Rsum_const, map_id, zxy_length. f_equal.
    unfold to_zxy. rewrite sum_flat.
    destruct p as [[px py] pz], u as [[ux uy] uz].
    set (dx := fun i => mass cdf px ux (INR i * s) (INR (S i) * s)). set (dy := fun j => mass cdf py uy (INR j * s) (INR (S j) * s)).
    set (dz := fun k => mass cdf pz uz (IZR (m + Z.of_nat k) * s) (IZR (m + Z.of_nat (S k)) * s)).
    rewrite (Rsum_map_ext _ (fun k => Rsum (map dx (seq 0 nx)) * Rsum (map dy (seq 0 ny)) * dz k)).
    2:{ intros k Ik. apply in_seq in Ik. rewrite sum_flat. rewrite (Rsum_map_ext _ (fun i => (Rsum (map dy (seq 0 ny)) * dz k) * dx i)).
        - rewrite Rsum_map_mult. ring.
        - intros i Ii. apply in_seq in Ii. rewrite (Rsum_map_ext _ (fun j => (dx i * dz k) * dy j)); [rewrite Rsum_map_mult; ring|].
          intros j Ij. apply in_seq in Ij. rewrite Q by lia. unfold q, mass3, dx, dy, dz. ring. }
    rewrite Rsum_map_mult. unfold mass3, dx, dy, dz, mass.
    rewrite (telescope (fun i => cdf px (ux + 1 / 10000000) (INR i * s))), (telescope (fun i => cdf py (uy + 1 / 10000000) (INR i * s))),
      (telescope (fun k => cdf pz (uz + 1 / 10000000) (IZR (m + Z.of_nat k) * s))).
    cbn [INR Z.of_nat]. rewrite Rmult_0_l, Z.add_0_r. reflexivity.
Qed.
Lemma mass3_le1 cdf p u lo hi : is_cdf cdf -> nonneg3 u ->
  (let '(x, y, z) := lo in let '(x', y', z') := hi in x <= x' /\ y <= y' /\ z <= z') -> 0 <= mass3 cdf p u lo hi <= 1.
Proof.
  intros C U H. destruct p as [[px py] pz], u as [[ux uy] uz], lo as [[x y] z], hi as [[x' y'] z']. destruct U as (? & ? & ?), H as (? & ? & ?). unfold mass3.
  pose proof (mass_nonneg cdf px ux x x' C ltac:(auto) ltac:(auto)) as [A0 A1]. pose proof (mass_nonneg cdf py uy y y' C ltac:(auto) ltac:(auto)) as [B0 B1].
  pose proof (mass_nonneg cdf pz uz z z' C ltac:(auto) ltac:(auto)) as [C0 C1].
  split; [repeat apply Rmult_le_pos; auto|]. replace 1 with (1 * 1 * 1) by ring. repeat apply Rmult_le_compat; auto. apply Rmult_le_pos; auto.
Qed.
