(* Lemmas about the ladle furnace. *)
Require Import Reals Lra Lia ZArith.
From Coq Require Import Permutation Sorted.
From Verif Require Import Model.X0Infer Model.Ladle Spec.LadleSpec Spec.PassiveSpec Proofs.PassiveP Proofs.GenP Proofs.BlockP Proofs.LossP.
Open Scope R_scope.
Open Scope list_scope.

Lemma mapM_ok {A B} (f : A -> res B) (g : A -> B) l : (forall a, In a l -> f a = Ok (g a)) -> mapM f l = Ok (map g l).
Proof. induction l as [|a l IH]; intros H; [reflexivity|]. cbn [mapM map]. rewrite H by (left; reflexivity). cbn [bind]. rewrite IH by (intros b Hb; apply H; right; exact Hb). reflexivity. Qed.
Lemma floor_le size z0 h k : 0 < size -> (k <= Rfloor ((h - z0) / size))%Z <-> z0 + IZR k * size <= h.
Proof.
  intros Hs. set (q := (h - z0) / size). assert (E : h = z0 + q * size) by (unfold q; field; lra). rewrite E. pose proof (Rfloor_bounds q) as [F1 F2]. split; intros H.
  - apply IZR_le in H. assert (IZR k * size <= q * size) by (apply Rmult_le_compat_r; lra). lra.
  - assert (IZR k <= q) by nra. apply IZR_lt_half. lra.
Qed.
Definition ladle_base (w : world) (m : ladle_x0s) (mat slag z : R) : R :=
  if Rleb z (fst (fill_range w)) then lx_furnace m else if Rleb z mat then lx_fill m else if Rleb z slag then lx_slag m else lx_air m.
Definition ladle_map (w : world) (m : ladle_x0s) (mat slag z : R) : list (list R) :=
  let nx := long (fst (w_lw w) / w_size w) in let ny := long (snd (w_lw w) / w_size w) in
  grid nx ny (fun i j => if (i =? 0)%Z || (i =? nx - 1)%Z || (j =? 0)%Z || (j =? ny - 1)%Z then lx_furnace m else ladle_base w m mat slag z).
Lemma ladle_layer_eq w m mat slag z : (0 < long (fst (w_lw w) / w_size w))%Z -> (0 < long (snd (w_lw w) / w_size w))%Z ->
  ladle_layer w m mat slag z = Ok (ladle_map w m mat slag z).
Proof.
  intros Hx Hy. unfold ladle_layer, ladle_map, ladle_base. cbn zeta. destruct (Z.leb_spec (long (fst (w_lw w) / w_size w)) 0); [lia|]. destruct (Z.leb_spec (long (snd (w_lw w) / w_size w)) 0); [lia|]. cbn [orb].
  destruct (Rleb_spec z (fst (fill_range w))); [reflexivity|]. destruct (Rltb_spec (fst (fill_range w)) z); [|lra]. cbn [andb].
  destruct (Rleb_spec z mat); [reflexivity|]. destruct (Rltb_spec mat z); [|lra]. cbn [andb]. destruct (Rleb_spec z slag); [reflexivity|]. destruct (Rltb_spec slag z); [|lra]. reflexivity.
Qed.
Lemma base_stack w m mat slag k : 0 < w_size w -> (1 <= k)%Z ->
  let a := Rfloor ((mat - fst (w_z w)) / w_size w) in let b := Rfloor ((slag - fst (w_z w)) / w_size w) in
  ladle_base w m mat slag (fst (w_z w) + IZR k * w_size w) = stack m a b k.
Proof.
  intros Hs Hk a b. unfold ladle_base, stack, fill_range. cbn [fst].
  pose proof (floor_le (w_size w) (fst (w_z w)) mat k Hs) as HA. fold a in HA. pose proof (floor_le (w_size w) (fst (w_z w)) slag k Hs) as HB. fold b in HB.
  destruct (Z.eqb_spec k 1) as [->|N].
  - destruct (Rleb_spec (fst (w_z w) + 1 * w_size w) (fst (w_z w) + w_size w)); [reflexivity|lra].
  - assert (2 <= IZR k) by (apply (IZR_le 2); lia). destruct (Rleb_spec (fst (w_z w) + IZR k * w_size w) (fst (w_z w) + w_size w)); [nra|].
    destruct (Rleb_spec (fst (w_z w) + IZR k * w_size w) mat), (Z.leb_spec k a); try reflexivity; try (exfalso; lra || lia || (apply HA in r; lia)).
    + exfalso. apply n0. now apply HA.
    + destruct (Rleb_spec (fst (w_z w) + IZR k * w_size w) slag), (Z.leb_spec k b); try reflexivity; exfalso.
      * apply HB in r. lia.
      * apply n1. now apply HB.
Qed.
(* ---------- the pipeline ---------- *)
Definition pick_win (l : list R) (i : nat) : list R := map (fun k => nth k l 0) (around i (length l)).
Definition avg1R (l : list R) : list R := map (fun i => Rsum (pick_win l i) / INR (length (pick_win l i))) (seq 0 (length l)).
Definition sumR (l : list R) : list R := map (fun i => nth (i - 1) l 0 + nth (Nat.min (i + 1) (length l - 1)) l 0) (seq 0 (length l)).
Lemma nth_fin l i : (i < length l)%nat -> nth i (map Fin l) NaN = Fin (nth i l 0).
Proof. intros H. rewrite nth_indep with (d' := Fin 0) by (now rewrite map_length). apply map_nth. Qed.
Lemma window_fin l i : window (map Fin l) i = map Fin (pick_win l i).
Proof. unfold window, pick_win. rewrite map_map, map_length. apply map_ext_in. intros k Hk. apply nth_fin. now apply around_in in Hk. Qed.
Lemma pick_win_in l i x : In x (pick_win l i) -> In x l.
Proof. unfold pick_win. rewrite in_map_iff. intros (k & <- & Hk). apply nth_In. now apply around_in in Hk. Qed.
Lemma pick_win_self l i : (i < length l)%nat -> In (nth i l 0) (pick_win l i).
Proof. intros H. unfold pick_win. apply in_map_iff. exists i. split; [reflexivity|now apply around_self]. Qed.
Lemma avg_1d_fin l : avg_1d (map Fin l) = map Fin (avg1R l).
Proof.
  unfold avg_1d, avg1R. rewrite map_map, map_length. apply map_ext_in. intros i Hi. apply in_seq in Hi. rewrite window_fin. unfold xmean. rewrite xtotal_fin, map_length. apply xdiv_fin.
  apply not_0_INR. pose proof (pick_win_self l i ltac:(lia)) as H. destruct (pick_win l i); [destruct H|discriminate].
Qed.
Lemma avg1_len l : length (avg1R l) = length l. Proof. unfold avg1R. now rewrite map_length, seq_length. Qed.
Lemma avg1_pos l : pos l -> pos (avg1R l).
Proof.
  intros H. apply Forall_forall. intros x Hx. apply in_map_iff in Hx as (i & <- & Hi). apply in_seq in Hi. pose proof (pick_win_self l i ltac:(lia)) as Hs.
  assert (Hn : pick_win l i <> []) by (destruct (pick_win l i); [destruct Hs|discriminate]).
  apply Rdiv_lt_0_compat; [apply Rsum_pos; [exact Hn|]|apply lt_0_INR; destruct (pick_win l i); [congruence|cbn; lia]]. intros y Hy. apply pick_win_in in Hy. unfold pos in H. rewrite Forall_forall in H. now apply H.
Qed.
Lemma ridge_fin l : negative (ridge_1d_0 (map Fin l)) = map Fin (sumR l).
Proof.
  unfold negative, ridge_1d_0, edge_det, sumR. rewrite !map_map, map_length. apply map_ext_in. intros i Hi. apply in_seq in Hi. rewrite !nth_fin by lia. cbn. f_equal. ring.
Qed.
Lemma sum_len l : length (sumR l) = length l. Proof. unfold sumR. now rewrite map_length, seq_length. Qed.
Lemma sumR_pos l : pos l -> pos (sumR l).
Proof.
  intros H. unfold pos in H. rewrite Forall_forall in H. apply Forall_forall. intros x Hx. apply in_map_iff in Hx as (i & <- & Hi). apply in_seq in Hi.
  assert (0 < nth (i - 1) l 0) by (apply H, nth_In; lia). assert (0 < nth (Nat.min (i + 1) (length l - 1)) l 0) by (apply H, nth_In; lia). lra.
Qed.
Lemma xmax2_fin a b : xmax2 (Fin a) (Fin b) = Fin (Rmax a b).
Proof. unfold xmax2. cbn. destruct (Rltb_spec a b); [rewrite Rmax_right by lra|rewrite Rmax_left by lra]; reflexivity. Qed.
Lemma fold_max l : l <> [] -> exists m, fold_right xmax2 NInf (map Fin l) = Fin m /\ In m l /\ forall z, In z l -> z <= m.
Proof.
  induction l as [|x l IH]; intros H; [congruence|]. destruct l as [|y l].
  - exists x. split; [reflexivity|]. split; [left; reflexivity|]. intros z [<-|[]]. lra.
  - destruct IH as (m & E & I & B); [discriminate|]. change (exists m0, xmax2 (Fin x) (fold_right xmax2 NInf (map Fin (y :: l))) = Fin m0 /\ In m0 (x :: y :: l) /\ (forall z, In z (x :: y :: l) -> z <= m0)). rewrite E, xmax2_fin.
    exists (Rmax x m). split; [reflexivity|]. split.
    + unfold Rmax. destruct (Rle_dec x m); [right; exact I|left; reflexivity].
    + intros z [<-|Hz]; [apply Rmax_l|]. eapply Rle_trans; [apply B; exact Hz|apply Rmax_r].
Qed.
Lemma fold_max_is m l : In m l -> (forall z, In z l -> z <= m) -> fold_right xmax2 NInf (map Fin l) = Fin m.
Proof.
  intros I B. destruct (fold_max l) as (m' & E & I' & B'); [intros ->; destruct I|]. rewrite E. f_equal. apply Rle_antisym; auto.
Qed.
Lemma map_opp l : map xopp (map Fin l) = map Fin (map Ropp l). Proof. rewrite !map_map. reflexivity. Qed.
Lemma pick_win_opp l i : pick_win (map Ropp l) i = map Ropp (pick_win l i).
Proof. unfold pick_win. rewrite map_length, map_map. apply map_ext. intros k. rewrite <- Ropp_0 at 1. apply map_nth. Qed.
Lemma ratio_at l i hi lo : (i < length l)%nat -> In hi (pick_win l i) -> In lo (pick_win l i) -> 0 < lo -> (forall z, In z (pick_win l i) -> lo <= z <= hi) ->
  nth i (max_div_min (map Fin l)) NaN = Fin (hi / lo).
Proof.
  intros Hi Ih Il Hl B. unfold max_div_min, pool_max. rewrite map_opp, !map_length, combine_map2, map_map. cbn [fst snd].
  rewrite nth_indep with (d' := (fun x => xdiv (fold_right xmax2 NInf (window (map Fin l) x)) (xopp (fold_right xmax2 NInf (window (map Fin (map Ropp l)) x)))) 0%nat) by (now rewrite map_length, seq_length).
  rewrite (map_nth (fun x => xdiv (fold_right xmax2 NInf (window (map Fin l) x)) (xopp (fold_right xmax2 NInf (window (map Fin (map Ropp l)) x))))). rewrite seq_nth by exact Hi. rewrite Nat.add_0_l, !window_fin, pick_win_opp.
  rewrite (fold_max_is hi) by (auto; intros z Hz; apply B; exact Hz).
  rewrite (fold_max_is (- lo)); [|now apply in_map|intros z Hz; apply in_map_iff in Hz as (y & <- & Hy); specialize (B y Hy); lra].
  cbn [xopp]. rewrite Ropp_involutive. apply xdiv_fin. lra.
Qed.
Lemma ratio_len x : length (max_div_min x) = length x.
Proof. unfold max_div_min, pool_max. rewrite map_length, combine_length, !map_length, !seq_length, ?map_length. apply Nat.min_id. Qed.
Lemma list_fin (x : list xr) (P : R -> Prop) : (forall i, (i < length x)%nat -> exists r, nth i x NaN = Fin r /\ P r) -> exists l, x = map Fin l /\ Forall P l.
Proof.
  induction x as [|a x IH]; intros H; [exists []; split; [reflexivity|constructor]|]. destruct (H 0%nat ltac:(cbn; lia)) as (r & E & Hr). cbn in E. subst a.
  destruct IH as (l & -> & Hl). { intros i Hi. exact (H (S i) ltac:(cbn; lia)). } exists (r :: l). split; [reflexivity|now constructor].
Qed.
Lemma ratio_pos l : pos l -> exists s, max_div_min (map Fin l) = map Fin s /\ pos s.
Proof.
  intros HP. apply list_fin. intros i Hi. rewrite ratio_len, map_length in Hi. pose proof (pick_win_self l i Hi) as Hs.
  destruct (fold_max (pick_win l i)) as (hi & _ & Ih & Bh); [intros E; rewrite E in Hs; destruct Hs|].
  destruct (fold_max (map Ropp (pick_win l i))) as (lo' & _ & Il & Bl); [intros E; apply map_eq_nil in E; rewrite E in Hs; destruct Hs|].
  apply in_map_iff in Il as (lo & <- & Il). unfold pos in HP. rewrite Forall_forall in HP. assert (0 < lo) by (apply HP; now apply pick_win_in in Il). assert (0 < hi) by (apply HP; now apply pick_win_in in Ih).
  exists (hi / lo). split; [|now apply Rdiv_lt_0_compat]. apply ratio_at; auto. intros z Hz. split; [|auto]. specialize (Bl (- z) ltac:(now apply in_map)). lra.
Qed.
Lemma soft_fin l : l <> [] -> exists m, In m l /\ (forall z, In z l -> z <= m) /\
  softmax (map Fin l) = map Fin (map (fun x => exp (x - m) / Rsum (map (fun x => exp (x - m)) l)) l) /\ 0 < Rsum (map (fun x => exp (x - m)) l).
Proof.
  intros H. destruct (fold_max l H) as (m & E & I & B). exists m. split; [exact I|]. split; [exact B|]. unfold softmax. rewrite E, !map_map. cbn [xsub xadd xopp xexp].
  assert (P : 0 < Rsum (map (fun x => exp (x - m)) l)). { apply Rsum_pos; [intros Q; apply map_eq_nil in Q; congruence|]. intros y Hy. apply in_map_iff in Hy as (z & <- & _). apply exp_pos. }
  split; [|exact P]. change (map (fun x => Fin (exp (x + - m))) l) with (map (fun x => Fin (exp (x - m))) l). rewrite <- (map_map (fun x => exp (x - m)) Fin l), xtotal_fin. apply map_ext. intros x. apply xdiv_fin. lra.
Qed.
Lemma soft_dist l : l <> [] -> distribution (softmax (map Fin l)).
Proof.
  intros H. destruct (soft_fin l H) as (m & _ & _ & -> & P). eexists. split; [reflexivity|]. split.
  - apply Forall_forall. intros x Hx. apply in_map_iff in Hx as (y & <- & _). apply Rdiv_lt_0_compat; [apply exp_pos|exact P].
  - unfold Rdiv. rewrite (Rsum_map_ext _ (fun x => / Rsum (map (fun x => exp (x - m)) l) * exp (x - m))) by (intros; ring). rewrite Rsum_map_mult. apply Rinv_l. lra.
Qed.
Lemma soft_order l i j : (i < length l)%nat -> (j < length l)%nat -> nth i l 0 < nth j l 0 -> xlt (nth i (softmax (map Fin l)) NaN) (nth j (softmax (map Fin l)) NaN) = true.
Proof.
  intros Hi Hj L. destruct (soft_fin l) as (m & _ & _ & -> & P); [intros ->; cbn in Hi; lia|]. rewrite !nth_fin by now rewrite map_length.
  set (f := fun x => exp (x - m) / Rsum (map (fun x0 => exp (x0 - m)) l)).
  rewrite nth_indep with (d' := f 0) by now rewrite map_length. rewrite (nth_indep (map f l) 0 (f 0)) by now rewrite map_length. rewrite !map_nth. cbn [xlt]. apply Rltb_true. unfold f, Rdiv.
  apply Rmult_lt_compat_r; [now apply Rinv_0_lt_compat|]. apply exp_increasing. lra.
Qed.
Lemma inner_len {A} (l : list A) : length (inner l) = (length l - 2)%nat.
Proof. unfold inner. destruct l as [|a l]; [reflexivity|]. cbn [tl]. induction l as [|b l IH] using rev_ind; [reflexivity|]. rewrite removelast_last. cbn. rewrite app_length. cbn. lia. Qed.
Lemma inner_in {A} (l : list A) x : In x (inner l) -> In x l.
Proof.
  unfold inner. destruct l as [|a l]; [auto|]. cbn [tl]. intros H. right. revert H. induction l as [|b l IH] using rev_ind; [auto|]. rewrite removelast_last. intros H. apply in_or_app. left. exact H.
Qed.
Lemma tl_in {A} (l : list A) x : In x (tl l) -> In x l. Proof. destruct l; [auto|now right]. Qed.
Lemma remove_shape nz nx ny x : cube_shape nz nx ny x -> cube_pos x -> cube_shape (nz - 1) (nx - 2) (ny - 2) (remove_ladle x) /\ cube_pos (remove_ladle x).
Proof.
  intros [L F] P. unfold cube_pos in *. rewrite !Forall_forall in *. split.
  - split; [unfold remove_ladle; rewrite map_length; destruct x; cbn in *; lia|]. apply Forall_forall. intros l Hl. apply in_map_iff in Hl as (l0 & <- & Hl). apply tl_in in Hl. destruct (F l0 Hl) as [A B]. split; [now rewrite map_length, inner_len, A|].
    apply Forall_forall. intros r Hr. apply in_map_iff in Hr as (r0 & <- & Hr). rewrite inner_len. apply inner_in in Hr. rewrite Forall_forall in B. now rewrite (B r0 Hr).
  - intros l Hl. apply in_map_iff in Hl as (l0 & <- & Hl). apply tl_in in Hl. specialize (P l0 Hl). rewrite Forall_forall in *. intros r Hr. apply in_map_iff in Hr as (r0 & <- & Hr). apply inner_in in Hr. specialize (P r0 Hr). unfold pos in *. rewrite Forall_forall in *. intros v Hv. apply P. now apply inner_in.
Qed.
Lemma chunk_spec {A} n k (l : list A) : length l = (k * n)%nat -> length (chunk n k l) = k /\ Forall (fun c => length c = n) (chunk n k l) /\ concat (chunk n k l) = l.
Proof.
  revert l. induction k as [|k IH]; intros l H; cbn [chunk].
  - destruct l; [repeat split; constructor|cbn in H; lia].
  - cbn [Nat.mul] in H. destruct (IH (skipn n l)) as (A1 & B & C); [rewrite skipn_length; lia|]. cbn [length concat]. rewrite A1, C. split; [reflexivity|]. split; [|apply firstn_skipn]. constructor; [rewrite firstn_length; lia|exact B].
Qed.
Lemma concat_len {A} n (x : list (list A)) : Forall (fun r => length r = n) x -> length (concat x) = (length x * n)%nat.
Proof. induction 1 as [|r x H F IH]; [reflexivity|]. cbn. rewrite app_length, IH, H. reflexivity. Qed.
Lemma flat_len nz nx ny x : cube_shape nz nx ny x -> length (concat (map (fun l => concat l) x)) = (nz * nx * ny)%nat.
Proof.
  intros [L F]. rewrite (concat_len (nx * ny)); [rewrite map_length, L; ring|]. rewrite Forall_forall in *. intros c Hc. apply in_map_iff in Hc as (l & <- & Hl). destruct (F l Hl) as [A B]. rewrite (concat_len ny) by exact B. now rewrite A.
Qed.
Lemma shape_dims nz nx ny x : cube_shape nz nx ny x -> (0 < nz)%nat -> (0 < nx)%nat -> dims3 x = (nz, nx, ny).
Proof.
  intros [L F] Hz Hx. unfold dims3. destruct x as [|l x]; [cbn in L; lia|]. inversion F as [|? ? [A B] ?]; subst. cbn [hd]. destruct l as [|r l]; [cbn in Hx; lia|]. inversion B; subst. reflexivity.
Qed.
Lemma flat_pos x : cube_pos x -> pos (concat (map (fun l => concat l) x)).
Proof. intros H. unfold cube_pos, pos in *. rewrite Forall_forall in *. intros v Hv. apply in_concat in Hv as (c & Hc & Hv). apply in_map_iff in Hc as (l & <- & Hl). apply in_concat in Hv as (r & Hr & Hv). specialize (H l Hl). rewrite Forall_forall in H. specialize (H r Hr). rewrite Forall_forall in H. now apply H. Qed.
Lemma pos_bounds l : pos l -> exists lo hi, 0 < lo /\ forall x, In x l -> lo <= x <= hi.
Proof.
  induction 1 as [|x l H F (lo & hi & L & B)]; [exists 1, 1; split; [lra|intros x []]|]. exists (Rmin x lo), (Rmax x hi). split; [now apply Rmin_glb_lt|]. intros y [<-|Hy]; [split; [apply Rmin_l|apply Rmax_l]|]. specialize (B y Hy).
  split; [eapply Rle_trans; [apply Rmin_r|lra]|eapply Rle_trans; [|apply Rmax_r]; lra].
Qed.
Lemma avg3_shape nz nx ny x : (0 < nz)%nat -> (0 < nx)%nat -> cube_shape nz nx ny x -> cube_pos x -> cube_shape nz nx ny (avg_3d x) /\ cube_pos (avg_3d x).
Proof.
  intros Hz Hx S P. unfold avg_3d. rewrite (shape_dims nz nx ny x S Hz Hx). set (f := concat (map (fun l => concat l) x)). pose proof (flat_len nz nx ny x S : length f = _) as Lf.
  destruct (pos_bounds f (flat_pos x P)) as (lo & hi & Hlo & B). destruct (pool_in nz nx ny f lo hi Lf B) as [Lp Bp]. set (p := avg_pool nz nx ny f) in *.
  destruct (chunk_spec (nx * ny) nz p) as (A1 & A2 & A3); [rewrite Lp, Lf; ring|]. rewrite Forall_forall in A2.
  assert (IN : forall c v, In c (chunk (nx * ny) nz p) -> In v c -> In v p) by (intros c v Hc Hv; rewrite <- A3; apply in_concat; exists c; auto).
  split; [split; [now rewrite map_length|]|]; apply Forall_forall; intros l Hl; apply in_map_iff in Hl as (c & <- & Hc); destruct (chunk_spec ny nx c ltac:(rewrite A2 by exact Hc; reflexivity)) as (C1 & C2 & C3).
  - split; assumption.
  - apply Forall_forall. intros r Hr. apply Forall_forall. intros v Hv. apply Rlt_le_trans with lo; [exact Hlo|]. apply Bp. apply (IN c); [exact Hc|]. rewrite <- C3. apply in_concat. exists r. auto.
Qed.
Lemma avg_layers_fin nz nx ny x : (0 < nx)%nat -> (0 < ny)%nat -> cube_shape nz nx ny x -> cube_pos x -> exists l, avg_layers x = map Fin l /\ pos l /\ length l = nz.
Proof.
  intros Hx Hy [L F] P. exists (map (fun l => Rsum (concat l) / INR (length (concat l))) x). rewrite map_length. split; [|split; [|exact L]].
  - unfold avg_layers. rewrite map_map. apply map_ext_in. intros l Hl. apply xdiv_fin. apply not_0_INR. rewrite Forall_forall in F. destruct (F l Hl) as [A B]. rewrite (concat_len ny) by exact B. rewrite A. nia.
  - apply Forall_forall. intros v Hv. apply in_map_iff in Hv as (l & <- & Hl). rewrite Forall_forall in F. destruct (F l Hl) as [A B]. pose proof (concat_len ny l B) as E. rewrite A in E.
    assert (0 < length (concat l))%nat by (rewrite E; nia). apply Rdiv_lt_0_compat; [apply Rsum_pos|now apply lt_0_INR].
    + intros Q. rewrite Q in E. cbn in E. nia.
    + intros y Hy'. apply in_concat in Hy' as (r & Hr & Hv). unfold cube_pos in P. rewrite Forall_forall in P. specialize (P l Hl). rewrite Forall_forall in P. specialize (P r Hr). unfold pos in P. rewrite Forall_forall in P. now apply P.
Qed.
Lemma scores_fin nz nx ny x : (2 <= nz)%nat -> (3 <= nx)%nat -> (3 <= ny)%nat -> cube_shape nz nx ny x -> cube_pos x ->
  exists s, scores x = map Fin s /\ pos s /\ length s = (nz - 1)%nat.
Proof.
  intros Hz Hx Hy S P. destruct (remove_shape nz nx ny x S P) as [S1 P1]. destruct (avg3_shape (nz - 1) (nx - 2) (ny - 2) _ ltac:(lia) ltac:(lia) S1 P1) as [S2 P2].
  destruct (avg_layers_fin (nz - 1) (nx - 2) (ny - 2) _ ltac:(lia) ltac:(lia) S2 P2) as (l & E & Pl & Ll). unfold scores. rewrite E, avg_1d_fin, ridge_fin. apply avg1_pos, sumR_pos in Pl.
  destruct (ratio_pos _ Pl) as (s & Es & Ps). exists s. split; [exact Es|]. split; [exact Ps|]. apply (f_equal (@length xr)) in Es. rewrite ratio_len, !map_length, sum_len, avg1_len in Es. congruence.
Qed.

(* a column of seven layers: fill up to the fifth, something else above; one voxel across *)
Definition col7 (a b : R) : list (list (list R)) := map (fun v => [[v]]) [a; a; a; a; a; b; b].
Lemma avg3_col7 a b : avg_layers (avg_3d (col7 a b)) = map Fin [a; a; a; a; (2 * a + b) / 3; (a + 2 * b) / 3; b].
Proof.
  unfold avg_3d, col7. cbn [dims3 map length hd concat app]. unfold avg_pool. cbn [seq around filter flat_map map app Nat.leb Nat.add Nat.mul andb nth length Rsum chunk firstn skipn].
  unfold avg_layers. cbn [map concat app length Rsum]. rewrite !xdiv_fin by (cbn [INR]; lra). cbn [INR]. repeat (f_equal; try field).
Qed.
Lemma avg1_col7 a b : avg1R [a; a; a; a; (2 * a + b) / 3; (a + 2 * b) / 3; b] = [a; a; a; (8 * a + b) / 9; (6 * a + 3 * b) / 9; (3 * a + 6 * b) / 9; (a + 5 * b) / 6].
Proof. unfold avg1R, pick_win. cbn [seq around filter map length Nat.leb Nat.add andb nth Rsum]. cbn [INR]. repeat (f_equal; try field). Qed.
Definition v7 (a b : R) : list R := [2 * a; 2 * a; (17 * a + b) / 9; (5 * a + b) / 3; (11 * a + 7 * b) / 9; (5 * a + 7 * b) / 6; (a + 3 * b) / 2].
Lemma sum_col7 a b : sumR [a; a; a; (8 * a + b) / 9; (6 * a + 3 * b) / 9; (3 * a + 6 * b) / 9; (a + 5 * b) / 6] = v7 a b.
Proof. unfold sumR, v7. cbn [seq map length Nat.sub Nat.add Nat.min nth]. repeat (f_equal; try field). Qed.
Lemma ratio_col7 a b : 0 < a < b -> max_div_min (map Fin (v7 a b)) =
  map Fin [1; (17 * a + b) / (18 * a); (5 * a + b) / (6 * a); (11 * a + 7 * b) / (17 * a + b); (5 * a + 7 * b) / (10 * a + 2 * b); (9 * a + 27 * b) / (22 * a + 14 * b); (3 * a + 9 * b) / (5 * a + 7 * b)].
Proof.
  intros H.
  apply nth_ext with (d := NaN) (d' := NaN); [reflexivity|]. intros i Hi. rewrite ratio_len in Hi. cbn in Hi.
  do 7 (destruct i as [|i]; [
    cbn [map nth];
    match goal with |- nth ?i _ _ = _ => 
      rewrite (ratio_at (v7 a b) i (nth (Nat.min (i + 1) 6) (v7 a b) 0) (nth (i - 1) (v7 a b) 0));
      [unfold v7; cbn [Nat.min Nat.add Nat.sub nth]; f_equal; field; lra
      |cbn; lia
      |unfold v7, pick_win; cbn [length seq around filter map Nat.leb Nat.add andb nth Nat.min]; cbn [In]; auto 9
      |unfold v7, pick_win; cbn [length seq around filter map Nat.leb Nat.add andb nth Nat.sub]; cbn [In]; auto 9
      |unfold v7; cbn [Nat.sub nth]; lra
      |unfold v7, pick_win; cbn [length seq around filter map Nat.leb Nat.add andb nth Nat.sub Nat.min]; cbn [In]; intros z Hz; repeat (destruct Hz as [<-|Hz]; [lra|]); destruct Hz]
    end|]). exfalso. lia.
Qed.
(* ---------- pixels ---------- *)
Lemma filter_prod {A B} (f : A -> bool) (g : B -> bool) l m :
  length (filter (fun p => f (fst p) && g (snd p)) (list_prod l m)) = (length (filter f l) * length (filter g m))%nat.
Proof.
  induction l as [|a l IH]; [reflexivity|]. cbn [list_prod filter]. rewrite filter_app, app_length, IH.
  assert (E : length (filter (fun p => f (fst p) && g (snd p)) (map (fun y => (a, y)) m)) = (if f a then length (filter g m) else 0)%nat).
  { clear. destruct (f a) eqn:E; induction m as [|b m IH]; cbn; rewrite ?E; cbn; auto. destruct (g b); cbn; auto. }
  rewrite E. destruct (f a); cbn; lia.
Qed.
Lemma points_eq size n : (1 <= n)%nat -> points 0 (INR n * size - size) n = map (fun i => INR i * size) (seq 0 n).
Proof.
  intros Hn. unfold points. apply map_ext_in. intros i Hi. apply in_seq in Hi. destruct (Nat.eq_dec n 1) as [->|N].
  - assert (i = 0)%nat as -> by lia. cbn [INR]. ring.
  - rewrite minus_INR by lia. cbn [INR]. field. assert (2 <= INR n) by (apply (le_INR 2); lia). lra.
Qed.
Lemma one_cell size n x : 0 < size -> 0 <= x < INR n * size -> length (filter (fun e => Rleb e x && Rltb x (e + size)) (map (fun i => INR i * size) (seq 0 n))) = 1%nat.
Proof.
  intros Hs. induction n as [|n IH]; intros Hx; [cbn in Hx; lra|]. rewrite seq_S, map_app, filter_app, app_length. cbn [map filter]. rewrite S_INR in Hx. rewrite Nat.add_0_l.
  destruct (Rlt_le_dec x (INR n * size)) as [L|L].
  - rewrite IH by lra. destruct (Rleb_spec (INR n * size) x); [lra|]. reflexivity.
  - destruct (Rleb_spec (INR n * size) x); [|lra]. destruct (Rltb_spec x (INR n * size + size)); [|lra]. cbn [andb length].
    enough (E : filter (fun e => Rleb e x && Rltb x (e + size)) (map (fun i => INR i * size) (seq 0 n)) = []) by (rewrite E; reflexivity).
    assert (B : forall e, In e (map (fun i => INR i * size) (seq 0 n)) -> e + size <= x).
    { intros e He. apply in_map_iff in He as (i & <- & Hi). apply in_seq in Hi. assert (INR i + 1 <= INR n) by (rewrite <- S_INR; apply le_INR; lia). nra. }
    revert B. generalize (map (fun i => INR i * size) (seq 0 n)). intros l0 B. clear IH. induction l0 as [|e l IHl]; [reflexivity|]. cbn. destruct (Rltb_spec x (e + size)) as [Q|Q]; [specialize (B e (or_introl eq_refl)); lra|]. rewrite andb_false_r. apply IHl. intros e' He'. apply B. now right.
Qed.
Lemma pixels_eq lw size p : pixels_at lw size p =
  (length (filter (fun e => Rleb e (fst p) && Rltb (fst p) (e + size)) (points 0 (fst lw - size) (n_pix lw size))) *
   length (filter (fun e => Rleb e (snd p) && Rltb (snd p) (e + size)) (points 0 (snd lw - size) (n_pix lw size))))%nat.
Proof. unfold pixels_at, xy_edges. rewrite <- filter_prod. reflexivity. Qed.

(* ---------- the height ---------- *)
Lemma xinsert_in x l y : In y (xinsert x l) <-> y = x \/ In y l.
Proof. induction l as [|z l IH]; cbn; [intuition|]. destruct (xbefore x z); cbn; [intuition|]. rewrite IH. intuition. Qed.
Lemma xinsert_len x l : length (xinsert x l) = S (length l). Proof. induction l as [|z l IH]; cbn; [reflexivity|]. destruct (xbefore x z); cbn; auto. Qed.
Lemma xsort_in l y : In y (xsort l) <-> In y l. Proof. induction l as [|x l IH]; [reflexivity|]. change (In y (xinsert x (xsort l)) <-> x = y \/ In y l). rewrite xinsert_in, IH. intuition. Qed.
Lemma xsort_len l : length (xsort l) = length l. Proof. induction l as [|x l IH]; [reflexivity|]. change (length (xinsert x (xsort l)) = S (length l)). now rewrite xinsert_len, IH. Qed.
Lemma quantile_range q n : 0 <= q <= 1 -> (1 <= n)%nat -> (1 <= quantile_index q n <= Z.of_nat n)%Z.
Proof.
  intros Hq Hn. unfold quantile_index. assert (H0 : 0 <= IZR (Z.of_nat n - 1)) by (apply IZR_le; lia). set (k := (Z.of_nat n - 1)%Z) in *.
  assert (B : 0 <= q * IZR k <= IZR k) by (split; [apply Rmult_le_pos; lra|nra]). pose proof (round_nonneg _ (proj1 B)). pose proof (round_bounds (q * IZR k)).
  assert (round_even (q * IZR k) <= k)%Z by (apply IZR_lt_half; lra). unfold k in *. lia.
Qed.
Lemma xkth_in k l : (1 <= k <= Z.of_nat (length l))%Z -> exists x, xkth k l = Ok x /\ In x l.
Proof.
  intros H. unfold xkth. destruct (Z.leb_spec 1 k); [|lia]. destruct (Z.leb_spec k (Z.of_nat (length l))); [|lia]. cbn [andb]. eexists. split; [reflexivity|]. apply xsort_in, nth_In. rewrite xsort_len. lia.
Qed.
(* the k-th value: fewer than k are smaller, at least k are not larger *)
Lemma filt_le {A} (f : A -> bool) l : (length (filter f l) <= length l)%nat.
Proof. induction l as [|a l IH]; cbn; [lia|]. destruct (f a); cbn; lia. Qed.
Lemma Rsort_insert x l : exists l1 l2, l = l1 ++ l2 /\ xinsert (Fin x) (map Fin l) = map Fin (l1 ++ x :: l2) /\ (forall y, In y l1 -> y < x) /\ (l2 = [] \/ exists y l3, l2 = y :: l3 /\ x <= y).
Proof.
  induction l as [|y l IH]; [exists [], []; cbn; intuition|]. cbn [map xinsert]. unfold xbefore. cbn [xisnan orb xle].
  destruct (Rleb_spec x y) as [G|G]; [exists [], (y :: l); cbn; intuition eauto|]. destruct IH as (l1 & l2 & -> & E & I1 & I2). exists (y :: l1), l2. cbn [app map]. rewrite E. split; [reflexivity|]. split; [reflexivity|].
  split; [|exact I2]. intros z [<-|Hz]; [lra|auto].
Qed.
Lemma Rsort_fin l : exists s, xsort (map Fin l) = map Fin s /\ Permutation l s /\ StronglySorted Rle s.
Proof.
  induction l as [|x l (s & E & P & S)]; [exists []; repeat constructor|]. change (xsort (map Fin (x :: l))) with (xinsert (Fin x) (xsort (map Fin l))). rewrite E.
  destruct (Rsort_insert x s) as (l1 & l2 & -> & Ei & I1 & I2). exists (l1 ++ x :: l2). split; [exact Ei|]. split; [rewrite P; apply Permutation_middle|].
  clear - S I1 I2. induction l1 as [|y l1 IH]; cbn [app] in *.
  - constructor; [exact S|]. destruct I2 as [->|(y & l3 & -> & G)]; [constructor|]. apply StronglySorted_inv in S as [_ F]. constructor; [exact G|]. eapply Forall_impl; [|exact F]. cbn. intros a Ha. lra.
  - apply StronglySorted_inv in S as [S F]. constructor; [apply IH; [exact S|intros z Hz; apply I1; now right]|]. apply Forall_app in F as [F1 F2]. apply Forall_app. split; [exact F1|]. constructor; [|exact F2]. specialize (I1 y (or_introl eq_refl)). lra.
Qed.
Lemma xkth_kth k l x : xkth k (map Fin l) = Ok (Fin x) -> kth k l x.
Proof.
  unfold xkth. destruct (Z.leb_spec 1 k) as [K1|]; [|discriminate]. destruct (Z.leb_spec k (Z.of_nat (length (map Fin l)))) as [K2|]; [|discriminate]. cbn [andb]. rewrite map_length in K2.
  destruct (Rsort_fin l) as (s & -> & P & S). intros E. injection E as E. assert (L := Permutation_length P).
  assert (N : nth_error s (Z.to_nat (k - 1)) = Some x).
  { rewrite (nth_indep _ NaN (Fin 0)) in E by (rewrite map_length; lia). rewrite map_nth in E. injection E as E. rewrite <- E. apply nth_error_nth'. lia. }
  unfold kth. assert (C : forall f, length (filter f l) = length (filter f s)). { intros f. clear - P. induction P; cbn; try congruence; [destruct (f x); cbn; congruence|destruct (f x), (f y); cbn; congruence]. }
  rewrite !C. apply nth_error_split in N as (a & b & -> & La). split; [|split].
  - apply Permutation_in with (a ++ x :: b); [now apply Permutation_sym|]. apply in_or_app. right. now left.
  - rewrite filter_app, app_length. cbn [filter]. destruct (Rltb_spec x x); [lra|]. assert (F0 : filter (fun y => Rltb y x) b = []).
    { clear - S. assert (Sb : Forall (Rle x) b) by (induction a as [|y a IH]; cbn in S; apply StronglySorted_inv in S as [S F]; auto). induction Sb as [|y b G Sb IHb]; [reflexivity|]. cbn. destruct (Rltb_spec y x); [lra|]. apply IHb.
      clear - S. induction a as [|z a IH]; cbn in *; apply StronglySorted_inv in S as [S F]; [|constructor; [now apply IH|]; apply Forall_app in F as [F1 F2]; apply Forall_app; split; [exact F1|]; inversion F2; subst; constructor; [assumption|]; now inversion H2].
      constructor; [now apply StronglySorted_inv in S as [S _]|]. now inversion F. }
    rewrite F0. cbn [length]. pose proof (filt_le (fun y => Rltb y x) a). lia.
  - rewrite filter_app, app_length. cbn [filter]. destruct (Rleb_spec x x); [|lra]. cbn [length].
    assert (Fa : filter (fun y => Rleb y x) a = a).
    { clear - S. induction a as [|y a IH]; [reflexivity|]. cbn in S. apply StronglySorted_inv in S as [S F]. cbn. apply Forall_app in F as [_ F]. inversion F; subst. destruct (Rleb_spec y x); [|lra]. f_equal. now apply IH. }
    rewrite Fa. lia.
Qed.
Lemma xmin2_fin a b : xmin2 (Fin a) (Fin b) = Fin (Rmin a b).
Proof. unfold xmin2. cbn. destruct (Rltb_spec b a); [rewrite Rmin_right by lra|rewrite Rmin_left by lra]; reflexivity. Qed.
Lemma xclip_fin lo hi x : xclip (Fin lo) (Fin hi) (Fin x) = Fin (Rmin (Rmax x lo) hi).
Proof. unfold xclip. now rewrite xmax2_fin, xmin2_fin. Qed.
Lemma mapM_map {A B C} (f : B -> res C) (g : A -> B) l : mapM f (map g l) = mapM (fun a => f (g a)) l.
Proof. induction l as [|a l IH]; [reflexivity|]. cbn. now rewrite IH. Qed.
Lemma map2_combine {A B C} (f : A -> B -> C) l m : map2 f l m = map (fun p => f (fst p) (snd p)) (combine l m).
Proof. revert m. induction l as [|a l IH]; intros [|b m]; cbn; try reflexivity. now rewrite IH. Qed.
Lemma map2_same {A B C D} (f : B -> C -> D) (g : A -> B) (h : A -> C) l : map2 f (map g l) (map h l) = map (fun a => f (g a) (h a)) l.
Proof. induction l; cbn; congruence. Qed.
(* every muon has a positive weight that does not depend on z *)
Lemma height_eq cdf lw size gw ms (sw : seen -> R) : ms <> [] ->
  (forall m, In m ms -> sig_weight cdf lw size gw m = Ok (sw m) /\ 0 < sw m /\ 0 < snd (sn_unc m) /\ 0 < sn_eff m) ->
  exists lo hi top, let wt := fun m => Rmin (Rmax (sw m * sn_eff m / (Rmin (Rmax (snd (sn_unc m)) lo) hi * Rmin (Rmax (snd (sn_unc m)) lo) hi)) 0) top in
    xkth (quantile_index 0.15865 (length ms)) (map (fun m => Fin (snd (sn_unc m))) ms) = Ok (Fin lo) /\
    xkth (quantile_index 0.84135 (length ms)) (map (fun m => Fin (snd (sn_unc m))) ms) = Ok (Fin hi) /\
    xkth (quantile_index 0.84135 (length ms)) (map (fun m => Fin (sw m * sn_eff m / (Rmin (Rmax (snd (sn_unc m)) lo) hi * Rmin (Rmax (snd (sn_unc m)) lo) hi))) ms) = Ok (Fin top) /\
    (forall m, In m ms -> 0 < wt m) /\
    height_pred cdf lw size gw ms = Ok (Fin (Rsum (map (fun m => wt m * snd (sn_poca m)) ms) / Rsum (map wt ms))).
Proof.
  intros N H. assert (Hn : (1 <= length ms)%nat) by (destruct ms; [congruence|cbn; lia]).
  set (us := map (fun m => Fin (snd (sn_unc m))) ms). assert (Lu : length us = length ms) by apply map_length.
  destruct (xkth_in (quantile_index 0.15865 (length ms)) us) as (xlo & E1 & I1); [rewrite Lu; apply quantile_range; [lra|exact Hn]|].
  destruct (xkth_in (quantile_index 0.84135 (length ms)) us) as (xhi & E2 & I2); [rewrite Lu; apply quantile_range; [lra|exact Hn]|].
  apply in_map_iff in I1 as (m1 & <- & I1). apply in_map_iff in I2 as (m2 & <- & I2). set (lo := snd (sn_unc m1)) in *. set (hi := snd (sn_unc m2)) in *.
  set (cu := fun m : seen => Rmin (Rmax (snd (sn_unc m)) lo) hi). set (wg := fun m : seen => sw m * sn_eff m / (cu m * cu m)).
  assert (Hlo : 0 < lo) by apply (H m1 I1). assert (Hhi : 0 < hi) by apply (H m2 I2).
  assert (Hcu : forall m, In m ms -> 0 < cu m) by (intros m Hm; unfold cu; apply Rmin_glb_lt; [eapply Rlt_le_trans; [exact Hlo|apply Rmax_r]|exact Hhi]).
  assert (Hwg : forall m, In m ms -> 0 < wg m). { intros m Hm. destruct (H m Hm) as (_ & A & _ & B). specialize (Hcu m Hm). unfold wg. apply Rdiv_lt_0_compat; now apply Rmult_lt_0_compat. }
  destruct (xkth_in (quantile_index 0.84135 (length ms)) (map (fun m => Fin (wg m)) ms)) as (xt & E3 & I3); [rewrite map_length; apply quantile_range; [lra|exact Hn]|].
  apply in_map_iff in I3 as (m3 & <- & I3). exists lo, hi, (wg m3). cbn zeta. fold us. split; [exact E1|]. split; [exact E2|]. split; [exact E3|]. fold cu. 
  set (wt := fun m => Rmin (Rmax (wg m) 0) (wg m3)).
  assert (Hwt : forall m, In m ms -> 0 < wt m) by (intros m Hm; unfold wt; apply Rmin_glb_lt; [eapply Rlt_le_trans; [apply Hwg; exact Hm|apply Rmax_l]|now apply Hwg]).
  split; [exact Hwt|]. unfold height_pred, height_with.
  rewrite (mapM_ok _ sw) by (intros m Hm; apply H; exact Hm). cbn [bind]. fold us. rewrite E1. cbn [bind]. rewrite E2. cbn [bind].
  assert (EW : map2 (fun (p : R * xr) u => xdiv (xmul (Fin (fst p)) (snd p)) (xmul u u)) (combine (map sw ms) (map (fun m => Fin (sn_eff m)) ms)) (map (xclip (Fin lo) (Fin hi)) us) = map (fun m => Fin (wg m)) ms).
  { unfold us. rewrite combine_map2, map_map. rewrite (map_ext _ _ (fun m => xclip_fin lo hi (snd (sn_unc m)))). rewrite map2_same. apply map_ext_in. intros m Hm. cbn [fst snd xmul]. apply xdiv_fin. specialize (Hcu m Hm). unfold cu in *. nra. }
  rewrite EW, E3. cbn [bind]. rewrite map_map.
  assert (EX : map (fun x => xclip (Fin 0) (Fin (wg m3)) (Fin (wg x))) ms = map (fun m => Fin (wt m)) ms) by (apply map_ext; intros m; apply xclip_fin). rewrite EX.
  assert (EZ : map2 (fun w m => xmul w (Fin (snd (sn_poca m)))) (map (fun m => Fin (wt m)) ms) ms = map Fin (map (fun m => wt m * snd (sn_poca m)) ms)).
  { rewrite map2_combine. rewrite <- (map_id ms) at 2. rewrite combine_map2, !map_map. reflexivity. }
  rewrite EZ, <- (map_map wt Fin), !xtotal_fin. rewrite xdiv_fin; [reflexivity|]. apply Rgt_not_eq, Rsum_pos; [intros Q; apply map_eq_nil in Q; congruence|]. intros y Hy. apply in_map_iff in Hy as (m & <- & Hm). now apply Hwt.
Qed.
Lemma sig_range smooth l x : 0 < smooth -> 0 < l -> 0 <= x <= l -> 1 / 2 < sig_model smooth l x <= 1.
Proof.
  intros Hs Hl Hx. unfold sig_model. cbn zeta. set (d := (x - l / 2) / (l / 2)). assert (Ed : d * (l / 2) = x - l / 2) by (unfold d; field; lra).
  assert (HD : -1 <= d <= 1) by (split; nra). assert (HA : 0 <= Rabs d <= 1) by (split; [apply Rabs_pos|apply Rabs_le; lra]).
  assert (I : 0 < / smooth) by now apply Rinv_0_lt_compat.
  pose proof (sigmoid_bounds (1 / smooth)) as B. assert (M1 : Rsigmoid 0 <= Rsigmoid ((1 - Rabs d) / smooth)) by (apply sigmoid_mono; unfold Rdiv; apply Rmult_le_pos; lra).
  assert (M2 : Rsigmoid ((1 - Rabs d) / smooth) <= Rsigmoid (1 / smooth)) by (apply sigmoid_mono; unfold Rdiv; apply Rmult_le_compat_r; lra).
  assert (E0 : Rsigmoid 0 = 1 / 2) by (unfold Rsigmoid; rewrite Ropp_0, exp_0; lra). rewrite E0 in M1. set (p := Rsigmoid ((1 - Rabs d) / smooth)) in *. set (q := Rsigmoid (1 / smooth)) in *.
  assert (Eq : p / q * q = p) by (field; lra). split; nra.
Qed.
Lemma weight_range smooth lw c : 0 < smooth -> 0 < fst lw -> 0 < snd lw -> 0 <= fst c <= fst lw -> 0 <= snd c <= snd lw -> 0 < pixel_weight smooth lw c <= 1.
Proof.
  intros Hs Hx Hy Cx Cy. unfold pixel_weight. pose proof (sig_range smooth (fst lw) (fst c) Hs Hx Cx). pose proof (sig_range smooth (snd lw) (snd c) Hs Hy Cy).
  set (a := (sig_model smooth (fst lw) (fst c) - 1 / 2) * 2) in *. set (b := (sig_model smooth (snd lw) (snd c) - 1 / 2) * 2) in *. assert (0 < a <= 1) by (unfold a; lra). assert (0 < b <= 1) by (unfold b; lra).
  split; [now apply Rmult_lt_0_compat|]. rewrite <- (Rmult_1_l 1). apply Rmult_le_compat; lra.
Qed.
Lemma points_in a b n x : a <= b -> In x (points a b n) -> a <= x <= b.
Proof.
  intros H Hx. unfold points in Hx. apply in_map_iff in Hx as (i & <- & Hi). apply in_seq in Hi. destruct (Nat.eq_dec n 1) as [->|N].
  - assert (i = 0)%nat as -> by lia. cbn [INR]. lra.
  - assert (P : 0 < INR (n - 1)) by (apply lt_0_INR; lia). assert (Hi' : INR i <= INR (n - 1)) by (apply le_INR; lia). pose proof (pos_INR i).
    set (q := INR i / INR (n - 1)). assert (Q : 0 <= q <= 1). { unfold q. split; [apply Rmult_le_pos; [lra|left; now apply Rinv_0_lt_compat]|]. apply Rmult_le_reg_r with (INR (n - 1)); [exact P|]. unfold Rdiv. rewrite Rmult_assoc, Rinv_l by lra. lra. }
    replace (INR i * ((b - a) / INR (n - 1))) with (q * (b - a)) by (unfold q; field; lra). nra.
Qed.
Lemma n_pix_pos lw size : 0 < size -> size <= fst lw -> (1 <= n_pix lw size)%nat.
Proof.
  intros Hs H. unfold n_pix. set (q := fst lw / size). assert (E : q * size = fst lw) by (unfold q; field; lra). assert (1 <= q) by nra. rewrite long_pos by lra. pose proof (Rfloor_bounds q).
  assert (1 <= Rfloor q)%Z by (apply IZR_lt_half; lra). lia.
Qed.
Lemma grid_weights lw size smooth gw : 0 < size -> size <= fst lw -> size <= snd lw -> set_smooth lw size smooth = Ok gw -> 0 < smooth /\ pos gw /\ length gw = length (xy_edges lw size) /\ gw <> [].
Proof.
  intros Hs Hx Hy E. unfold set_smooth in E. destruct (Rltb_spec 0 smooth) as [S|S]; [|discriminate]. injection E as <-. split; [exact S|]. split; [|split].
  - apply Forall_forall. intros w Hw. apply in_map_iff in Hw as ([x y] & <- & Hc). apply in_prod_iff in Hc as [Ix Iy]. apply points_in in Ix; [|lra]. apply points_in in Iy; [|lra]. apply weight_range; cbn [fst snd]; lra.
  - rewrite map_length. unfold xy_centres, xy_edges. rewrite !prod_length. unfold points. now rewrite !map_length.
  - intros Q. apply map_eq_nil in Q. apply (f_equal (@length _)) in Q. unfold xy_centres in Q. rewrite prod_length in Q. unfold points in Q. rewrite !map_length, !seq_length in Q. pose proof (n_pix_pos lw size Hs Hx). cbn in Q. nia.
Qed.
Lemma in_combine_pair {A B} (l : list A) (m : list B) p : In p (combine l m) -> In (snd p) m.
Proof. destruct p. apply in_combine_r. Qed.
Lemma sig_weight_pos cdf lw size gw m : (forall p u x y, 0 < u -> x < y -> cdf p u x < cdf p u y) -> 0 < size -> pos gw -> length gw = length (xy_edges lw size) -> gw <> [] ->
  0 < fst (fst (sn_unc m)) -> 0 < snd (fst (sn_unc m)) ->
  exists s, sig_weight cdf lw size gw m = Ok s /\ 0 < s.
Proof.
  intros HC Hs P L N Ux Uy. unfold sig_weight, pixel_prob. destruct (sn_unc m) as [[ux uy] uz], (sn_poca m) as [[px py] pz]. cbn [fst snd] in *. destruct (Rltb_spec 0 ux); [|lra]. destruct (Rltb_spec 0 uy); [|lra]. cbn [andb]. eexists. split; [reflexivity|].
  apply Rsum_pos.
  - intros Q. apply map_eq_nil in Q. apply (f_equal (@length _)) in Q. rewrite combine_length, <- L, Nat.min_id in Q. destruct gw; [congruence|discriminate].
  - intros y Hy. apply in_map_iff in Hy as (p & <- & Hp). apply in_combine_pair in Hp. unfold pos in P. rewrite Forall_forall in P. specialize (P _ Hp).
    pose proof (HC px ux (fst (fst p)) (fst (fst p) + size) ltac:(lra) ltac:(lra)). pose proof (HC py uy (snd (fst p)) (snd (fst p) + size) ltac:(lra) ltac:(lra)). repeat apply Rmult_lt_0_compat; lra.
Qed.
Lemma wavg_range {A} (w z : A -> R) l lo hi : l <> [] -> (forall a, In a l -> 0 < w a /\ lo <= z a <= hi) -> lo <= Rsum (map (fun a => w a * z a) l) / Rsum (map w l) <= hi.
Proof.
  intros N H. assert (P : 0 < Rsum (map w l)). { apply Rsum_pos; [intros Q; apply map_eq_nil in Q; congruence|]. intros y Hy. apply in_map_iff in Hy as (a & <- & Ha). now apply H. }
  assert (Q1 : lo * Rsum (map w l) <= Rsum (map (fun a => w a * z a) l)) by (rewrite <- Rsum_map_mult; apply Rsum_map_le; intros a Ha; destruct (H a Ha); nra).
  assert (Q2 : Rsum (map (fun a => w a * z a) l) <= hi * Rsum (map w l)) by (rewrite <- Rsum_map_mult; apply Rsum_map_le; intros a Ha; destruct (H a Ha); nra).
  set (S := Rsum (map w l)) in *. set (T := Rsum (map (fun a => w a * z a) l)) in *. assert (E : T / S * S = T) by (field; lra). split; nra.
Qed.
(* ---------- spread over range ---------- *)
Lemma grouped_snoc l t p : grouped (l ++ [(t, p)]) = put_pred t p (grouped l).
Proof. unfold grouped. rewrite fold_left_app. reflexivity. Qed.
Lemma put_keys t p d : forall k, In k (map fst (put_pred t p d)) <-> k = t \/ In k (map fst d).
Proof. induction d as [|[t' ps] d IH]; intros k; cbn; [intuition|]. destruct (Reqb_spec t t') as [->|N]; cbn; [intuition|]. rewrite IH. intuition. Qed.
Lemma put_nodup t p d : NoDup (map fst d) -> NoDup (map fst (put_pred t p d)).
Proof.
  induction d as [|[t' ps] d IH]; intros H; cbn; [constructor; [intros []|constructor]|]. inversion H; subst. destruct (Reqb_spec t t') as [->|N]; cbn; [exact H|]. constructor; [|now apply IH]. intros Q. apply put_keys in Q as [Q|Q]; [congruence|contradiction].
Qed.
Lemma put_entry t p d k ps : NoDup (map fst d) -> In (k, ps) (put_pred t p d) <->
  (k <> t /\ In (k, ps) d) \/ (k = t /\ ((exists ps0, In (k, ps0) d /\ ps = ps0 ++ [p]) \/ (~ In t (map fst d) /\ ps = [p]))).
Proof.
  induction d as [|[t' qs] d IH]; intros H; cbn [put_pred].
  - cbn. split; [intros [E|[]]; injection E as <- <-; right; auto|]. intros [[_ []]|[-> [(ps0 & [] & _)|[_ ->]]]]. auto.
  - inversion H as [|? ? N1 N2]; subst. destruct (Reqb_spec t t') as [->|N].
    + cbn. split.
      * intros [E|I]; [injection E as <- <-; right; split; [reflexivity|left; exists qs; auto]|]. destruct (Req_EM_T k t') as [->|NE]; [|left; auto]. exfalso. apply N1. apply in_map_iff. exists (t', ps). auto.
      * intros [[NE [E|I]]|[-> [(ps0 & [E|I] & ->)|[Q _]]]]; [injection E as <- <-; congruence|auto|injection E as <-; auto| |exfalso; apply Q; auto]. exfalso. apply N1. apply in_map_iff. exists (t', ps0). auto.
    + cbn [In]. rewrite IH by exact N2. cbn [map fst In]. split.
      * intros [E|[[NE I]|[-> [(ps0 & I & ->)|[Q ->]]]]]; [injection E as <- <-; left; split; [congruence|auto]|left; auto|right; split; [reflexivity|left; exists ps0; auto]|right; split; [reflexivity|right; split; [intros [Q'|Q']; [congruence|contradiction]|reflexivity]]].
      * intros [[NE [E|I]]|[-> [(ps0 & [E|I] & ->)|[Q ->]]]]; [auto|right; left; auto|injection E as -> ->; congruence|right; right; split; [reflexivity|left; exists ps0; auto]|right; right; split; [reflexivity|right; split; [tauto|reflexivity]]].
Qed.
Lemma preds_snoc k l t p : preds_of k (l ++ [(t, p)]) = preds_of k l ++ (if Reqb k t then [p] else []).
Proof. unfold preds_of. rewrite filter_app, map_app. cbn. destruct (Reqb k t); reflexivity. Qed.
Lemma preds_nil k l : preds_of k l = [] <-> ~ In k (map fst l).
Proof.
  unfold preds_of. split.
  - intros E Q. apply in_map_iff in Q as ([t p] & <- & Hp). cbn in E. assert (In p []) as []. rewrite <- E. apply in_map_iff. exists (t, p). split; [reflexivity|]. apply filter_In. split; [exact Hp|]. cbn. destruct (Reqb_spec t t); congruence.
  - intros Q. destruct (filter _ l) as [|[t p] l0] eqn:E; [reflexivity|exfalso]. assert (I : In (t, p) (filter (fun tp => Reqb k (fst tp)) l)) by (rewrite E; now left). apply filter_In in I as [I E1]. cbn in E1. apply Reqb_true in E1 as ->. apply Q. apply in_map_iff. exists (t, p). auto.
Qed.
Lemma grouped_spec l : NoDup (map fst (grouped l)) /\ (forall k ps, In (k, ps) (grouped l) <-> In k (map fst l) /\ ps = preds_of k l).
Proof.
  induction l as [|[t p] l [ND IH]] using rev_ind; [split; [constructor|cbn; intuition]|]. rewrite grouped_snoc. split; [now apply put_nodup|]. intros k ps. rewrite put_entry by exact ND. rewrite map_app, in_app_iff, preds_snoc. cbn [map fst In].
  assert (KE : In t (map fst (grouped l)) <-> In t (map fst l)). { split; intros Q; [apply in_map_iff in Q as ([? ps0] & <- & Q); apply IH in Q; tauto|]. apply in_map_iff. exists (t, preds_of t l). split; [reflexivity|]. apply IH. auto. }
  destruct (Reqb_spec k t) as [->|N].
  - split.
    + intros [[NE _]|[_ [(ps0 & I & ->)|[Q ->]]]]; [congruence|apply IH in I as [I ->]; auto|]. split; [auto|]. rewrite KE in Q. apply preds_nil in Q. now rewrite Q.
    + intros [_ ->]. right. split; [reflexivity|]. destruct (in_dec Req_EM_T t (map fst l)) as [Q|Q]; [left; exists (preds_of t l); split; [apply IH; auto|reflexivity]|right; split; [now rewrite KE|]]. apply preds_nil in Q. now rewrite Q.
  - rewrite app_nil_r. split.
    + intros [[_ I]|[E _]]; [apply IH in I as [I ->]; auto|congruence].
    + intros [[I|[E|[]]] ->]; [left; split; [exact N|apply IH; auto]|congruence].
Qed.
Definition big (l : list (R * list R)) : list (list R) := map (fun g => concat (snd g)) (filter (fun g => Nat.leb 2 (length (snd g))) (grouped l)).
Lemma big_in l c : In c (big l) <-> exists t, (2 <= length (preds_of t l))%nat /\ c = concat (preds_of t l).
Proof.
  unfold big. rewrite in_map_iff. split.
  - intros ([k ps] & <- & I). apply filter_In in I as [I E]. apply grouped_spec in I as [I ->]. cbn [snd] in *. apply Nat.leb_le in E. eauto.
  - intros (t & H & ->). exists (t, preds_of t l). split; [reflexivity|]. apply filter_In. split; [|now apply Nat.leb_le]. apply grouped_spec. split; [|reflexivity]. destruct (in_dec Req_EM_T t (map fst l)) as [Q|Q]; [exact Q|]. apply preds_nil in Q. rewrite Q in H. cbn in H. lia.
Qed.
Definition ss (l : list R) : R := Rsum (map (fun x => (x - mean l) * (x - mean l)) l).
Lemma ss_nonneg l : 0 <= ss l. Proof. apply Rsum_nonneg. intros y Hy. apply in_map_iff in Hy as (x & <- & _). apply Rle_0_sqr. Qed.
Lemma sum_zero l : (forall x, In x l -> 0 <= x) -> Rsum l = 0 -> forall x, In x l -> x = 0.
Proof.
  induction l as [|a l IH]; intros P E x Hx; [destruct Hx|]. cbn in E. assert (0 <= a) by (apply P; now left). assert (0 <= Rsum l) by (apply Rsum_nonneg; intros; apply P; now right).
  destruct Hx as [<-|Hx]; [lra|]. apply IH; [intros; apply P; now right|lra|exact Hx].
Qed.
Lemma ss_zero l : ss l = 0 -> forall x, In x l -> x = mean l.
Proof.
  intros E x Hx. assert (Q : (x - mean l) * (x - mean l) = 0). { apply (sum_zero (map (fun x => (x - mean l) * (x - mean l)) l)); [intros y Hy; apply in_map_iff in Hy as (z & <- & _); apply Rle_0_sqr|exact E|]. apply in_map_iff. exists x. auto. }
  apply Rmult_integral in Q. lra.
Qed.
Lemma all_eq_sum l c : (forall x, In x l -> x = c) -> Rsum l = INR (length l) * c.
Proof. intros H. induction l as [|a l IH]; [cbn; ring|]. cbn [Rsum length]. rewrite S_INR, IH by (intros; apply H; now right). rewrite (H a) by now left. ring. Qed.
Lemma ss_eq0 l : (forall x y, In x l -> In y l -> x = y) -> ss l = 0.
Proof.
  intros H. destruct l as [|a l]; [reflexivity|]. assert (M : mean (a :: l) = a). { unfold mean. rewrite (all_eq_sum _ a) by (intros x Hx; apply H; [exact Hx|now left]). field. apply not_0_INR. discriminate. }
  unfold ss. rewrite M. rewrite (all_eq_sum _ 0); [ring|]. intros y Hy. apply in_map_iff in Hy as (x & <- & Hx). rewrite (H x a) by (exact Hx || now left). ring.
Qed.
Lemma len2_INR {A} (l : list A) : (2 <= length l)%nat -> 0 < INR (length l) - 1. Proof. intros H. apply (le_INR 2) in H. cbn [INR] in H. lra. Qed.
Lemma vstd_fin l : (2 <= length l)%nat -> vstd l = Fin (sqrt (ss l / (INR (length l) - 1))).
Proof.
  intros H. pose proof (len2_INR l H). unfold vstd. cbn [xsub xadd xopp]. change (INR (length l) + - (1)) with (INR (length l) - 1). rewrite xdiv_fin by lra. apply xsqrt_fin. apply Rmult_le_pos; [apply ss_nonneg|left; now apply Rinv_0_lt_compat].
Qed.
Lemma vmean_fin l : l <> [] -> vmean l = Fin (mean l). Proof. intros H. apply xdiv_fin. apply not_0_INR. destruct l; [congruence|discriminate]. Qed.
Lemma xmean_fin l : l <> [] -> xmean (map Fin l) = Fin (mean l). Proof. intros H. unfold xmean. rewrite xtotal_fin, map_length. now apply vmean_fin. Qed.
Lemma xvstd_fin l : (2 <= length l)%nat -> xvstd (map Fin l) = Fin (sqrt (ss l / (INR (length l) - 1))).
Proof.
  intros H. assert (N : l <> []) by (intros ->; cbn in H; lia). pose proof (len2_INR l H). unfold xvstd. rewrite xmean_fin by exact N. rewrite !map_map, map_length. cbn [xsub xadd xopp xmul].
  change (map (fun x => Fin ((x + - mean l) * (x + - mean l))) l) with (map (fun x => Fin ((x - mean l) * (x - mean l))) l). rewrite <- (map_map (fun x => (x - mean l) * (x - mean l)) Fin), xtotal_fin. change (INR (length l) + - (1)) with (INR (length l) - 1). rewrite xdiv_fin by lra. apply xsqrt_fin. apply Rmult_le_pos; [apply ss_nonneg|left; now apply Rinv_0_lt_compat].
Qed.
