(* Property C92: the lorry benchmark. *)
From Coq Require Import Reals Lra Lia ZArith List Bool.
From Verif Require Import Base.RUtil Model.Passives Model.Lorry Spec.PassiveSpec Spec.LorrySpec Proofs.PassiveP Proofs.LorryP.
Import ListNotations.
Open Scope R_scope.
Open Scope list_scope.

(* C92. What is kept of the volume, and the block sizes: whole numbers of voxels which make up the asked volume, all there are up to the largest size of the cargo space (X, Y or height);
   without any, an error. *)
Theorem C92_sizes :
  forall w nx ny nz u_volume fill, whole w nx ny nz ->
  let n := Z.max (Z.max (Z.of_nat nx) (Z.of_nat ny)) (round_even ((fill * snd (w_z w) - (fst (w_z w) + w_size w)) / w_size w)) in
  match new_lorry w u_volume fill with
  | Ok g => l_shp g = (Z.of_nat nx, Z.of_nat ny) /\ l_cargo g = (top w 0, fill * snd (w_z w)) /\ l_sizes g <> [] /\
      forall s, In s (l_sizes g) <-> exists a b c, s = (INR a, INR b, INR c) /\ (1 <= a <= b)%nat /\ (b <= c)%nat /\ (Z.of_nat c <= n)%Z /\ INR (a * b * c) * w_size w ^ 3 = u_volume
  | Err e => e = ValueError /\ forall a b c, (1 <= a <= b)%nat -> (b <= c)%nat -> (Z.of_nat c <= n)%Z -> INR (a * b * c) * w_size w ^ 3 <> u_volume
  end.
Proof.
  intros w nx ny nz u fill (Hs & El & Ez) n. unfold new_lorry. rewrite El. cbn [fst snd]. rewrite (INR_IZR_INZ nx), (INR_IZR_INZ ny), !long_mult by (lia || lra). fold n.
  set (p := fun s : nat * nat * nat => _). assert (P : forall a b c, In (a, b, c) (filter p (combos (Z.to_nat n))) <-> (1 <= a <= b)%nat /\ (b <= c)%nat /\ (Z.of_nat c <= n)%Z /\ INR (a * b * c) * w_size w ^ 3 = u).
  { intros a b c. rewrite filter_In, combos_spec. unfold p. rewrite Reqb_true. intuition lia. }
  destruct (filter p (combos (Z.to_nat n))) as [|s0 l] eqn:Ef.
  - split; [reflexivity|]. intros a b c H1 H2 H3 E. apply (proj2 (P a b c)). auto.
  - cbn [l_shp l_cargo l_sizes]. split; [reflexivity|]. split; [unfold top; cbn [plus]; change (INR 1) with 1; f_equal; ring|]. split; [discriminate|]. intros s. rewrite <- Ef in *. rewrite in_map_iff. split.
    + intros ([[a b] c] & <- & H). apply P in H. exists a, b, c. tauto.
    + intros (a & b & c & -> & H). exists (a, b, c). split; [reflexivity|]. apply P. tauto.
Qed.
Print Assumptions C92_sizes.
(* C92. No size is listed twice, so each is as likely as the others. *)
Theorem C92_each_once : forall w u_volume fill g, new_lorry w u_volume fill = Ok g -> NoDup (l_sizes g).
Proof.
  intros w u fill g. unfold new_lorry. set (l := filter _ _). intros H. assert (El : l_sizes g = map (fun s : nat * nat * nat => let '(i, j, k) := s in (INR i, INR j, INR k)) l).
  { destruct l; [discriminate|]. injection H as <-. reflexivity. }
  rewrite El. assert (ND : NoDup l) by (apply NoDup_filter, combos_nodup). clear - ND. induction ND as [|[[a b] c] l Hn ND IH]; [constructor|]. cbn [map]. constructor; [|exact IH].
  intros Hi. apply in_map_iff in Hi as ([[a' b'] c'] & E & Hi). injection E as E1 E2 E3. apply INR_eq in E1, E2, E3. subst. contradiction.
Qed.
Print Assumptions C92_each_once.

Lemma layer_background w x0_lorry air uranium bkg g blk draw nx ny k : 0 < w_size w -> (forall n, (draw n < length bkg)%nat) ->
  l_shp g = (Z.of_nat nx, Z.of_nat ny) -> fst (l_cargo g) = top w 0 ->
  exists m, lorry_layer x0_lorry air uranium bkg g blk draw (top w k) = Ok m /\
    layer_map m nx ny (fun i j v =>
      match blk with
      | Some ((lx, ly, lz), (hx, hy, hz)) =>
          if Rltb lz (top w k) && Rleb (top w k) hz && in_slice (Z.of_nat nx) (long lx) (long hx) (Z.of_nat i) && in_slice (Z.of_nat ny) (long ly) (long hy) (Z.of_nat j)
          then v = uranium else behind w (snd (l_cargo g)) x0_lorry air bkg k v
      | None => behind w (snd (l_cargo g)) x0_lorry air bkg k v
      end).
Proof.
  intros Hs Hd Es Ec. unfold lorry_layer. rewrite Es, !Nat2Z.id.
  set (base := fun i j => if Rleb (top w k) (fst (l_cargo g)) then x0_lorry else if Rleb (top w k) (snd (l_cargo g)) then nth (draw (i * ny + j)%nat) bkg 0 else air).
  set (f := fun i j => match blk with
      | Some ((lx, ly, lz), (hx, hy, hz)) => if Rltb lz (top w k) && Rleb (top w k) hz && in_slice (Z.of_nat nx) (long lx) (long hx) (Z.of_nat i) && in_slice (Z.of_nat ny) (long ly) (long hy) (Z.of_nat j) then uranium else base i j
      | None => base i j end).
  exists (map (fun i => map (f i) (seq 0 ny)) (seq 0 nx)). split; [|split; [|split]].
  - apply mapM_seq. intros i Hi. apply mapM_seq. intros j Hj. unfold f.
    assert (B : (if Rleb (top w k) (fst (l_cargo g)) then Ok x0_lorry else if Rleb (top w k) (snd (l_cargo g)) then Generation.get bkg (draw (i * ny + j)%nat) else Ok air) = Ok (base i j)).
    { unfold base. destruct (Rleb _ _); [reflexivity|]. destruct (Rleb _ _); [|reflexivity]. unfold Generation.get. now rewrite (nth_error_nth' bkg 0 (Hd _)). }
    rewrite B. cbn [bind]. destruct blk as [[[[lx ly] lz] [[hx hy] hz]]|]; [|reflexivity]. destruct (_ && _ && _ && _); reflexivity.
  - now rewrite map_length, seq_length.
  - apply Forall_forall. intros r Hr. apply in_map_iff in Hr as (i & <- & _). now rewrite map_length, seq_length.
  - intros i j Hi Hj. exists (f i j). split; [now apply at_ij_map|].
    assert (B : behind w (snd (l_cargo g)) x0_lorry air bkg k (base i j)).
    { assert (T : top w k = top w 0 + INR k * w_size w) by (unfold top; rewrite !plus_INR; change (INR 0) with 0; change (INR 1) with 1; ring).
      unfold base. rewrite Ec. split; [|split].
      - intros ->. destruct (Rleb_spec (top w 0) (top w 0)); [reflexivity|lra].
      - intros Hk Ht. assert (0 < INR k) by (apply lt_0_INR; lia). destruct (Rleb_spec (top w k) (top w 0)); [nra|]. destruct (Rleb_spec (top w k) (snd (l_cargo g))); [|lra]. apply nth_In, Hd.
      - intros Hk Ht. assert (0 < INR k) by (apply lt_0_INR; lia). destruct (Rleb_spec (top w k) (top w 0)); [nra|]. destruct (Rleb_spec (top w k) (snd (l_cargo g))); [lra|]. reflexivity. }
    unfold f. destruct blk as [[[[lx ly] lz] [[hx hy] hz]]|]; [|exact B]. destruct (_ && _ && _ && _); [reflexivity|exact B].
Qed.
(* C92. Without a block (and the target is 0 exactly then) every layer is lorry, cargo or air. *)
Theorem C92_empty :
  forall w nx ny nz u_volume fill g x0_lorry air uranium bkg u_prob u i o r, whole w nx ny nz -> new_lorry w u_volume fill = Ok g -> u_prob <= u ->
  exists f, lorry_generate x0_lorry air uranium bkg w g u_prob u i o r = Ok (f, 0%Z) /\
  forall draw k, (forall n, (draw n < length bkg)%nat) ->
  exists m, f draw (top w k) = Ok m /\ layer_map m nx ny (fun _ _ v => behind w (fill * snd (w_z w)) x0_lorry air bkg k v).
Proof.
  intros w nx ny nz uv fill g x0_lorry air uranium bkg u_prob u i o r Hw Hg Hu. pose proof (C92_sizes w nx ny nz uv fill Hw) as S. cbv zeta in S. rewrite Hg in S. destruct S as (E1 & E2 & _).
  unfold lorry_generate. destruct (Rltb_spec u u_prob); [lra|]. eexists. split; [reflexivity|]. intros draw k Hd. destruct Hw as (Hs & _).
  destruct (layer_background w x0_lorry air uranium bkg g None draw nx ny k Hs Hd E1) as (m & E & L); [now rewrite E2|]. exists m. split; [exact E|]. rewrite E2 in L. exact L.
Qed.
Print Assumptions C92_empty.
(* C92. With a block (and the target is 1 exactly then) which fits into the cargo space: uranium fills exactly a box of whole voxels, with the asked volume, inside of the volume, above the
   lorry and not above the cargo; everything else is lorry, cargo or air. *)
Theorem C92_block :
  forall w nx ny nz u_volume fill g x0_lorry air uranium bkg u_prob u i o r low high,
  whole w nx ny nz -> fill * snd (w_z w) <= snd (w_z w) -> new_lorry w u_volume fill = Ok g -> in_unit r -> u < u_prob -> lorry_block w g i o r = Ok (low, high) ->
  all3 Rle (lift3 Rminus high low) (INR nx, INR ny, fill * snd (w_z w) - top w 0) ->
  exists f b, lorry_generate x0_lorry air uranium bkg w g u_prob u i o r = Ok (f, 1%Z) /\
    INR (bx_a b * bx_b b * bx_c b) * w_size w ^ 3 = u_volume /\
    (bx_i b + bx_a b <= nx)%nat /\ (bx_j b + bx_b b <= ny)%nat /\ (1 <= bx_k b)%nat /\ (bx_k b + bx_c b <= nz)%nat /\ top w (bx_k b + bx_c b - 1) <= fill * snd (w_z w) /\
    forall draw k, (forall n, (draw n < length bkg)%nat) ->
    exists m, f draw (top w k) = Ok m /\
      layer_map m nx ny (fun i j v => (in_box b i j k -> v = uranium) /\ (~ in_box b i j k -> behind w (fill * snd (w_z w)) x0_lorry air bkg k v)).
Proof.
  intros w nx ny nz uv fill g x0_lorry air uranium bkg u_prob u i o [[r1 r2] r3] low high Hw Hf Hg (R1 & R2 & R3) Hu Hb Hfit.
  pose proof (C92_sizes w nx ny nz uv fill Hw) as S. cbv zeta in S. rewrite Hg in S. destruct S as (E1 & E2 & _ & HS). destruct Hw as (Hs & El & Ez).
  unfold lorry_generate. destruct (Rltb_spec u u_prob); [|lra]. rewrite Hb. cbn [bind]. unfold lorry_block, Generation.get in Hb. destruct (nth_error (l_sizes g) i) as [s|] eqn:Es; [|discriminate]. cbn [bind] in Hb.
  apply nth_error_In, HS in Es as (a0 & b0 & c0 & -> & Ha & Hb0 & _ & Ev). destruct (pick_nat o a0 b0 c0) as (a & b & c & Ep & Epr & Ha' & Hb' & Hc'); [lia|lia|lia|]. rewrite Ep in Hb. rewrite E1, E2 in Hb. cbn [fst snd] in Hb. injection Hb as <- <-.
  cbn [lift3 all3] in Hfit. destruct Hfit as (F1 & F2 & F3).
  assert (Fa : (a <= nx)%nat) by (apply INR_le; lra). assert (Fb : (b <= ny)%nat) by (apply INR_le; lra).
  destruct (low_voxel nx a r1 Fa R1) as (i0 & Ei & Hi0). destruct (low_voxel ny b r2 Fb R2) as (j0 & Ej & Hj0). rewrite Ei, Ej in *.
  set (l := uniform (top w 0) (fill * snd (w_z w) - INR c * w_size w) r3) in *. assert (Fc : INR c * w_size w <= fill * snd (w_z w) - top w 0) by lra.
  assert (L1 : top w 0 <= l <= fill * snd (w_z w) - INR c * w_size w) by (unfold l, uniform; nra).
  destruct (layers w l c Hs) as (k0 & Hk0 & Hk1 & HK). { unfold top in L1. cbn [plus] in L1. change (INR 1) with 1 in L1. lra. }
  eexists. exists (Box i0 j0 k0 a b c). cbn [bx_i bx_j bx_k bx_a bx_b bx_c]. split; [reflexivity|]. split; [now rewrite Epr|]. split; [exact Hi0|]. split; [exact Hj0|]. split; [exact Hk0|].
  assert (Ht : fst (w_z w) + INR (k0 + c) * w_size w <= fill * snd (w_z w)) by lra.
  split. { apply INR_le. apply Rmult_le_reg_r with (w_size w); [exact Hs|]. lra. } split. { unfold top. replace (k0 + c - 1 + 1)%nat with (k0 + c)%nat by lia. exact Ht. }
  intros draw k Hd. destruct (layer_background w x0_lorry air uranium bkg g (Some ((IZR (Z.of_nat i0), IZR (Z.of_nat j0), l), (IZR (Z.of_nat i0) + INR a, IZR (Z.of_nat j0) + INR b, l + INR c * w_size w))) draw nx ny k Hs Hd E1) as (m & E & (L & L' & L'')); [now rewrite E2|].
  exists m. split; [exact E|]. split; [exact L|]. split; [exact L'|]. intros ii jj Hii Hjj. destruct (L'' ii jj Hii Hjj) as (v & Hv & P). exists v. split; [exact Hv|]. rewrite E2 in P. cbn [snd] in P. unfold in_box. cbn [bx_i bx_j bx_k bx_a bx_b bx_c].
  pose proof (slice_nat nx i0 a ii Hii) as SX. pose proof (slice_nat ny j0 b jj Hjj) as SY. pose proof (HK k) as SK.
  destruct (_ && _ && _ && _) eqn:Eb in P.
  - apply andb_prop in Eb as [Eb E4]. apply andb_prop in Eb as [Eb E3]. split; [auto|]. intro X. exfalso. apply X. tauto.
  - split; [|auto]. intros (X1 & X2 & X3). exfalso. apply SX in X1. apply SY in X2. apply SK in X3. rewrite X1, X2, X3 in Eb. discriminate.
Qed.
Print Assumptions C92_block.

(* three by four by five voxels of one metre, cargo up to four fifths of the height, two cubic metres of uranium *)
Definition C92_world : world := World (INR 3 * 1, INR 4 * 1) (0, 0 + INR 5 * 1) 1.
Lemma made w nx ny nz u fill a b c : whole w nx ny nz -> (1 <= a <= b)%nat -> (b <= c)%nat -> (c <= nx)%nat \/ (c <= ny)%nat -> INR (a * b * c) * w_size w ^ 3 = u ->
  exists g i, new_lorry w u fill = Ok g /\ nth_error (l_sizes g) i = Some (INR a, INR b, INR c).
Proof.
  intros Hw Ha Hb Hc E. pose proof (C92_sizes w nx ny nz u fill Hw) as S. cbv zeta in S. destruct (new_lorry w u fill) as [g|e].
  - destruct S as (_ & _ & _ & S). exists g. assert (In (INR a, INR b, INR c) (l_sizes g)) as [i Hi]%In_nth_error; [|exists i; auto]. apply S. exists a, b, c. repeat split; auto; try lia.
  - destruct S as [_ S]. exfalso. apply (S a b c); auto. lia.
Qed.
Example C92_case : exists g i low high,
  whole C92_world 3 4 5 /\ 4 / 5 * snd (w_z C92_world) <= snd (w_z C92_world) /\ new_lorry C92_world 2 (4 / 5) = Ok g /\ in_unit (1 / 2, 1 / 2, 1 / 2) /\
  lorry_block C92_world g i O123 (1 / 2, 1 / 2, 1 / 2) = Ok (low, high) /\ all3 Rle (lift3 Rminus high low) (INR 3, INR 4, 4 / 5 * snd (w_z C92_world) - top C92_world 0).
Proof.
  assert (W : whole C92_world 3 4 5) by (split; [cbn; lra|split; reflexivity]). destruct (made C92_world 3 4 5 2 (4 / 5) 1 1 2 W) as (g & i & Eg & Ei); [lia|lia|left; lia|cbn; ring|].
  exists g, i. unfold lorry_block, Generation.get. rewrite Ei. cbn [bind pick3]. do 2 eexists. split; [exact W|]. split; [cbn; lra|]. split; [exact Eg|]. split; [cbn; lra|]. split; [reflexivity|].
  cbn [lift3 all3]. unfold top. cbn. lra.
Qed.
(* C92 is false of blocks that do not fit: sizes up to the largest extent of the volume are allowed in any direction.  Here uranium is in the lorry's floor *)
Theorem C92_fit_refuted :
  exists w nx ny nz u_volume fill g i o r, whole w nx ny nz /\ 0 < fill < 1 /\ fst (w_z w) = 0 /\ new_lorry w u_volume fill = Ok g /\ in_unit r /\
  forall x0_lorry air uranium bkg, bkg <> [] -> exists f, lorry_generate x0_lorry air uranium bkg w g 1 0 i o r = Ok (f, 1%Z) /\
  forall draw, (forall n, (draw n < length bkg)%nat) -> exists m, f draw (top w 0) = Ok m /\ at_ij m 0 0 = Some uranium.
Proof.
  set (w := World (INR 4 * 1, INR 1 * 1) (0, 0 + INR 3 * 1) 1). assert (W : whole w 4 1 3) by (split; [cbn; lra|split; reflexivity]).
  destruct (made w 4 1 3 4 (2 / 3) 1 1 4 W) as (g & i & Eg & Ei); [lia|lia|left; lia|cbn; ring|].
  exists w, 4%nat, 1%nat, 3%nat, 4, (2 / 3), g, i, O123, (0, 0, 1 / 2). split; [exact W|]. split; [lra|]. split; [reflexivity|]. split; [exact Eg|]. split; [cbn; lra|].
  pose proof (C92_sizes w 4 1 3 4 (2 / 3) W) as S. cbv zeta in S. rewrite Eg in S. destruct S as (E1 & E2 & _).
  intros x0_lorry air uranium bkg Hb. unfold lorry_generate. destruct (Rltb_spec 0 1); [|lra]. unfold lorry_block, Generation.get. rewrite Ei. cbn [bind pick3]. eexists. split; [reflexivity|].
  intros draw Hd. match goal with |- exists m, lorry_layer _ _ _ _ _ (Some ?b) _ _ = _ /\ _ => set (blk := b) end.
  destruct (layer_background w x0_lorry air uranium bkg g (Some blk) draw 4 1 0 ltac:(cbn; lra) Hd E1) as (m & E & (_ & _ & L)); [now rewrite E2|]. exists m. split; [exact E|].
  destruct (L 0%nat 0%nat ltac:(lia) ltac:(lia)) as (v & Hv & P). rewrite Hv. f_equal. unfold blk in P. rewrite E1, E2 in P. cbn [fst snd lift3] in P.
  assert (U : forall a : R, uniform 0 a 0 = 0) by (intro; unfold uniform; ring). rewrite !U in P. rewrite (long_int 0) in P by lia.
  pose proof (proj2 (slice_nat 4 0 1 0 ltac:(lia)) ltac:(lia)) as S1. pose proof (proj2 (slice_nat 1 0 1 0 ltac:(lia)) ltac:(lia)) as S2.
  change (IZR (Z.of_nat 0)) with 0 in S1, S2. rewrite S1, S2 in P. rewrite !andb_true_r in P.
  assert (K : Rltb (uniform (top w 0) (2 / 3 * snd (w_z w) - INR 4 * w_size w) (1 / 2)) (top w 0) && Rleb (top w 0) (uniform (top w 0) (2 / 3 * snd (w_z w) - INR 4 * w_size w) (1 / 2) + INR 4 * w_size w) = true).
  { apply andb_true_iff. rewrite Rltb_true, Rleb_true. unfold uniform, top, w. cbn. lra. }
  rewrite K in P. exact P.
Qed.
Print Assumptions C92_fit_refuted.
(* C92 is false of volumes high above the origin: the height of the cargo is a fraction of the z of the volume's top, which may be below the volume.  Here the target is 1, and there is
   no uranium *)
Theorem C92_height_refuted :
  exists w nx ny nz u_volume fill g i o r, whole w nx ny nz /\ 0 < fill < 1 /\ new_lorry w u_volume fill = Ok g /\ in_unit r /\
  forall x0_lorry air uranium bkg, exists f, lorry_generate x0_lorry air uranium bkg w g 1 0 i o r = Ok (f, 1%Z) /\
  forall draw k, (forall n, (draw n < length bkg)%nat) -> exists m, f draw (top w k) = Ok m /\ layer_map m nx ny (fun _ _ v => v = x0_lorry \/ v = air).
Proof.
  set (w := World (INR 2 * 1, INR 2 * 1) (10, 10 + INR 2 * 1) 1). assert (W : whole w 2 2 2) by (split; [cbn; lra|split; reflexivity]).
  destruct (made w 2 2 2 1 (4 / 5) 1 1 1 W) as (g & i & Eg & Ei); [lia|lia|left; lia|cbn; ring|].
  exists w, 2%nat, 2%nat, 2%nat, 1, (4 / 5), g, i, O123, (0, 0, 9 / 10). split; [exact W|]. split; [lra|]. split; [exact Eg|]. split; [cbn; lra|].
  pose proof (C92_sizes w 2 2 2 1 (4 / 5) W) as S. cbv zeta in S. rewrite Eg in S. destruct S as (E1 & E2 & _).
  intros x0_lorry air uranium bkg. unfold lorry_generate. destruct (Rltb_spec 0 1); [|lra]. unfold lorry_block, Generation.get. rewrite Ei. cbn [bind pick3]. eexists. split; [reflexivity|].
  intros draw k Hd. match goal with |- exists m, lorry_layer _ _ _ _ _ (Some ?b) _ _ = _ /\ _ => set (blk := b) end.
  destruct (layer_background w x0_lorry air uranium bkg g (Some blk) draw 2 2 k ltac:(cbn; lra) Hd E1) as (m & E & (L1 & L2 & L)); [now rewrite E2|]. exists m. split; [exact E|]. split; [exact L1|]. split; [exact L2|].
  intros ii jj Hi Hj. destruct (L ii jj Hi Hj) as (v & Hv & P). exists v. split; [exact Hv|]. unfold blk in P. rewrite E1, E2 in P. cbn [fst snd lift3] in P.
  assert (T : top w k = 11 + INR k) by (unfold top, w; cbn [w_z w_size fst]; rewrite plus_INR; change (INR 1) with 1; ring). pose proof (pos_INR k) as K0.
  assert (K : Rleb (top w k) (uniform (top w 0) (4 / 5 * snd (w_z w) - INR 1 * w_size w) (9 / 10) + INR 1 * w_size w) = false).
  { destruct (Rleb_spec (top w k) (uniform (top w 0) (4 / 5 * snd (w_z w) - INR 1 * w_size w) (9 / 10) + INR 1 * w_size w)) as [X|X]; [|reflexivity]. exfalso. rewrite T in X. unfold uniform, top, w in X. cbn in X. lra. }
  rewrite K, andb_false_r in P. cbn [andb] in P. destruct P as (P1 & _ & P3). destruct k as [|k]; [left; now apply P1|right]. apply P3; [lia|]. rewrite T. clear - K0. set (q := INR (S k)) in *. clearbody q. unfold w. cbn. lra.
Qed.
Print Assumptions C92_height_refuted.
