(* Passive volumes for training: C62, C63, C80, C81. *)
Require Import Reals Lra Lia ZArith.
From Coq Require Import Sorting.Permutation.
From Verif Require Import Model.Passives Spec.PassiveSpec Proofs.PassiveP.
Open Scope R_scope.
Open Scope list_scope.

(* one pass over the yielder after another; a pass asks for fuel items at most *)
Fixpoint epochs {L T} (fuel : nat) (draws : list (nat -> nat)) (y : yielder) : list (list (L * option T) * option exn) :=
  match draws with
  | [] => []
  | d :: ds => let '(xs, e, y', _) := consume fuel d y NotStarted in (xs, e) :: epochs fuel ds y'
  end.
(* C62. Every epoch yields every entry exactly once with its own target, and as many as len() says; without shuffling in the given order. *)
Theorem C62_list :
  forall {L T} (l : list (@entry L T)) n shuffle draws fuel y, (length l < fuel)%nat ->
  new_yielder (Listed l) n shuffle = Ok y ->
  y_n y = length l /\
  Forall (fun p => snd p = None /\ Permutation (map yielded l) (fst p) /\ length (fst p) = y_n y /\ (shuffle = false -> fst p = map yielded l)) (epochs fuel draws y).
Proof.
  intros L T l n b draws fuel y Hf E. injection E as <-. split; [reflexivity|]. cbn [y_n].
  enough (H : forall l', Permutation l l' -> (b = false -> l' = l) -> Forall (fun p => snd p = None /\ Permutation (map yielded l) (fst p) /\ length (fst p) = length l /\ (b = false -> fst p = map yielded l)) (epochs fuel draws (Yielder (Listed l') (length l) b))) by (apply H; auto).
  induction draws as [|d ds IH]; intros l' HP Hb; [constructor|]. cbn [epochs]. rewrite (Permutation_length HP) at 1. rewrite consume_list by (now rewrite <- (Permutation_length HP)). cbn zeta iota.
  set (l2 := if b then shuffled d l' else l'). assert (HP2 : Permutation l l2) by (unfold l2; destruct b; [eapply perm_trans; [exact HP|apply shuffled_perm]|exact HP]).
  assert (Hb2 : b = false -> l2 = l) by (intros E; unfold l2; rewrite E; auto). constructor.
  - cbn [fst snd]. split; [reflexivity|]. split; [now apply Permutation_map|]. split; [rewrite map_length; symmetry; now apply Permutation_length|]. intros E. now rewrite Hb2.
  - rewrite <- (Permutation_length HP). now apply IH.
Qed.
Print Assumptions C62_list.
(* C62. A generator is asked exactly n_passives times per epoch, and its results are passed on; the number has to be given. *)
Theorem C62_generator :
  forall {L T} (items : nat -> L * option T) n shuffle draws fuel y, (n < fuel)%nat ->
  new_yielder (Generated (fun i => Ok (items i)) 0) (Some n) shuffle = Ok y ->
  y_n y = n /\ epochs fuel draws y = map (fun k => (map items (seq (k * n) n), None)) (seq 0 (length draws)) /\
  new_yielder (Generated (fun i => Ok (items i)) 0) None shuffle = Err ValueError.
Proof.
  intros L T items n b draws fuel y Hf E. injection E as <-. split; [reflexivity|]. split; [|reflexivity].
  enough (H : forall k, epochs fuel draws (Yielder (Generated (fun i => Ok (items i)) (k * n)) n b) = map (fun k => (map items (seq (k * n) n), None)) (seq k (length draws))) by exact (H 0%nat).
  induction draws as [|d ds IH]; intros k; [reflexivity|]. cbn [epochs length seq map].
  assert (E : consume fuel d (Yielder (Generated (fun i => Ok (items i)) (k * n)) n b) NotStarted = (map items (seq (k * n) n), None, Yielder (Generated (fun i => Ok (items i)) (S k * n)) n b, Finished)).
  { destruct fuel as [|fuel]; [lia|]. transitivity (consume (S fuel) d (Yielder (Generated (fun i => Ok (items i)) (k * n)) n b) (At 0)); [reflexivity|].
    rewrite (consume_gen d (fun i => Ok (items i)) items n b n 0 (k * n) (S fuel)); [|reflexivity|exact Hf|reflexivity]. replace (k * n + n)%nat with (S k * n)%nat by lia. reflexivity. }
  rewrite E. f_equal. apply IH.
Qed.
Print Assumptions C62_generator.
Example C62_case : let l := [Plain 1; Pair 2 (Some 5); Plain 3]%nat in
  epochs 4 [fun i => (2 - i)%nat; fun _ => 0%nat] (Yielder (Listed l) 3 true) = [([(3, None); (2, Some 5); (1, None)], None); ([(2, Some 5); (1, None); (3, None)], None)]%nat.
Proof. reflexivity. Qed.

(* C80 is false: the list is shuffled in place when another pass over it starts; a pass under way then repeats an entry and skips another. *)
Theorem C80_nested_refuted :
  let y := Yielder (Listed [Plain 1; Plain 2; Plain 3]%nat) 3 true in
  let keep := fun i => i in let swap := fun _ => 0%nat in
  let '(a, y1, it1) := next keep y NotStarted in          (* first pass: one item *)
  let '(_, _, y2, _) := consume 4 swap y1 NotStarted in   (* a second pass, complete *)
  let '(rest, _, _, _) := consume 4 keep y2 it1 in        (* the rest of the first *)
  (a, rest) = (Ok (Some (1, None)), [(3, None); (1, @None nat)])%nat.
Proof. vm_compute. reflexivity. Qed.
Print Assumptions C80_nested_refuted.

(* C63. A block that fits in the chosen orientation, or has a random size, lies inside of the passive volume. *)
Definition sizes_of (low high : vec3) : vec3 := lift3 Rminus high low.
Theorem C63_contained :
  forall w block_size max_half g rs o rl, 0 < w_size w -> all3 (fun s d => s <= d) (w_size w, w_size w, w_size w) (dims w) ->
  in_unit rs -> in_unit rl ->
  match block_size with None => True | Some s => all3 (fun s d => 0 <= s <= d) (pick3 o s) (dims w) end ->
  new_block_gen w block_size max_half = Ok g ->
  let '(low, high) := block_coords w g rs o rl in contained w low high.
Proof.
  intros w bs mh g rs o rl Hs Hd Hr Hl Hb E.
  assert (Eg : b_size g = bs /\ (b_max g = dims w \/ b_max g = lift3 (fun a _ => a / 2) (dims w) (dims w))).
  { unfold new_block_gen in E. destruct bs, mh as [[|]|]; try discriminate; injection E as <-; cbn; auto. }
  destruct Eg as [E1 E2]. unfold block_coords. rewrite E1. destruct rs as [[r1 r2] r3], rl as [[l1 l2] l3]. destruct Hr as (R1 & R2 & R3). destruct Hl as (L1 & L2 & L3). destruct Hd as (D1 & D2 & D3). cbn beta in D1, D2, D3.
  destruct (b_max g) as [[mx my] mz] eqn:Em.
  assert (HM : (mx = fst (w_lw w) \/ mx = fst (w_lw w) / 2) /\ (my = snd (w_lw w) \/ my = snd (w_lw w) / 2) /\ (mz = snd (w_z w) - fst (w_z w) \/ mz = (snd (w_z w) - fst (w_z w)) / 2)).
  { destruct E2 as [E2|E2]; unfold dims, lift3 in E2; injection E2 as -> -> ->; auto. }
  assert (W : forall s d m r, 0 < s <= d -> (m = d \/ m = d / 2) -> 0 <= r < 1 -> 0 <= uniform s m r <= d) by (intros s d m r H [->| ->] Hr; unfold uniform; split; nra).
  assert (V : forall lo hi s r, 0 <= s <= hi - lo -> 0 <= r < 1 -> lo <= uniform lo (hi - s) r /\ uniform lo (hi - s) r + s <= hi) by (intros lo hi s r H Hr; unfold uniform; split; nra).
  destruct HM as (M1 & M2 & M3).
  destruct bs as [s|].
  - unfold dims in Hb. destruct (pick3 o s) as [[sx sy] sz]. destruct Hb as (B1 & B2 & B3). cbn beta in B1, B2, B3. unfold contained, lift3.
    destruct (V 0 (fst (w_lw w)) sx l1 ltac:(lra) L1). destruct (V 0 (snd (w_lw w)) sy l2 ltac:(lra) L2). destruct (V (fst (w_z w)) (snd (w_z w)) sz l3 ltac:(lra) L3). repeat split; lra.
  - unfold dims in *. pose proof (W (w_size w) (fst (w_lw w)) mx r1 ltac:(lra) M1 R1) as W1. pose proof (W (w_size w) (snd (w_lw w)) my r2 ltac:(lra) M2 R2) as W2. pose proof (W (w_size w) (snd (w_z w) - fst (w_z w)) mz r3 ltac:(lra) M3 R3) as W3.
    unfold contained, lift3. destruct (V 0 (fst (w_lw w)) _ l1 ltac:(rewrite Rminus_0_r; exact W1) L1). destruct (V 0 (snd (w_lw w)) _ l2 ltac:(rewrite Rminus_0_r; exact W2) L2). destruct (V (fst (w_z w)) (snd (w_z w)) _ l3 W3 L3). repeat split; lra.
Qed.
Print Assumptions C63_contained.
(* C63 is false for fixed sizes that fit in one orientation only: a block as large as the volume, turned, sticks out for every draw. *)
Theorem C63_orientation_refuted :
  let w := World (1, 1) (0, 1 / 2) (1 / 10) in
  all3 (fun s d => 0 <= s <= d) (1, 1, 1 / 2) (dims w) /\
  exists g, new_block_gen w (Some (1, 1, 1 / 2)) None = Ok g /\
  forall rs rl, in_unit rs -> in_unit rl -> let '(low, high) := block_coords w g rs O132 rl in ~ contained w low high.
Proof.
  cbn zeta. split; [unfold dims; cbn; lra|]. eexists. split; [reflexivity|]. intros [[r1 r2] r3] [[l1 l2] l3] _ (L1 & L2 & L3).
  unfold block_coords. cbn [b_max b_size pick3 w_lw w_z w_size fst snd lift3]. unfold contained, uniform. cbn [w_lw w_z fst snd]. intros H. nra.
Qed.
Print Assumptions C63_orientation_refuted.
(* C63. Voxels whose centre lies inside of the block, in layers whose top lies in it, are of the block's material; voxels outside are background. *)
Theorem C63_voxels :
  forall w low high base block z i j, 0 < w_size w -> contained w low high ->
  let nx := Rfloor (fst (w_lw w) / w_size w) in let ny := Rfloor (snd (w_lw w) / w_size w) in
  (0 <= i < nx)%Z -> (0 <= j < ny)%Z ->
  exists v, voxel (block_layer low high base block z (w_lw w) (w_size w)) i j = Some v /\
    (inside low high (w_size w) z i j -> v = block) /\ (~ touches low high (w_size w) z i j -> v = base) /\ (v = block \/ v = base).
Proof.
  intros w [[lx ly] lz] [[hx hy] hz] base block z i j Hs (C1 & C2 & C3 & C4 & C5 & C6) nx ny Hi Hj. unfold block_layer.
  assert (P : forall a, 0 <= a -> 0 <= a / w_size w) by (intros a Ha; apply Rmult_le_pos; [exact Ha|left; now apply Rinv_0_lt_compat]).
  rewrite !long_pos by (apply P; lra). fold nx ny. rewrite voxel_grid by assumption. eexists. split; [reflexivity|].
  set (bx := in_slice nx _ _ i). set (by_ := in_slice ny _ _ j).
  assert (Bx : bx = true <-> (round_even (lx / w_size w) <= i < round_even (hx / w_size w))%Z) by (apply in_slice_spec; [apply round_nonneg, P; lra|apply round_nonneg, P; lra|exact Hi]).
  assert (By : by_ = true <-> (round_even (ly / w_size w) <= j < round_even (hy / w_size w))%Z) by (apply in_slice_spec; [apply round_nonneg, P; lra|apply round_nonneg, P; lra|exact Hj]).
  destruct (div_mid (w_size w) lx i Hs) as (A1 & _ & A3 & _). destruct (div_mid (w_size w) hx i Hs) as (_ & A2 & _ & A4).
  destruct (div_mid (w_size w) ly j Hs) as (B1 & _ & B3 & _). destruct (div_mid (w_size w) hy j Hs) as (_ & B2 & _ & B4).
  split; [|split].
  - intros (Hz & Hx & Hy). assert (Ex : bx = true) by (apply Bx, slice_in; split; [apply A1|apply A2]; lra). assert (Ey : by_ = true) by (apply By, slice_in; split; [apply B1|apply B2]; lra).
    rewrite Ex, Ey. destruct (Rleb_spec lz z); [|lra]. destruct (Rleb_spec z hz); [|lra]. reflexivity.
  - intros Hn. destruct (Rleb lz z && Rleb z hz && bx && by_) eqn:E; [|reflexivity]. exfalso. apply Hn. apply andb_prop in E as [E Ey]. apply andb_prop in E as [E Ex]. apply andb_prop in E as [E1 E2].
    apply Rleb_true in E1. apply Rleb_true in E2. apply Bx, slice_touch in Ex. apply By, slice_touch in Ey. unfold touches. rewrite A3, A4 in Ex. rewrite B3, B4 in Ey. auto.
  - destruct (_ && by_); auto.
Qed.
Print Assumptions C63_voxels.
(* C63. A block wider than a voxel (and at least as high) appears in some layer of a volume of whole voxels. *)
Theorem C63_present :
  forall w low high base block (nx ny nz : Z), 0 < w_size w -> contained w low high ->
  fst (w_lw w) = IZR nx * w_size w -> snd (w_lw w) = IZR ny * w_size w -> snd (w_z w) - fst (w_z w) = IZR nz * w_size w ->
  (let '(sx, sy, sz) := sizes_of low high in w_size w < sx /\ w_size w < sy /\ w_size w <= sz) ->
  exists k i j, (1 <= k <= nz)%Z /\ (0 <= i < nx)%Z /\ (0 <= j < ny)%Z /\
    voxel (block_layer low high base block (fst (w_z w) + IZR k * w_size w) (w_lw w) (w_size w)) i j = Some block.
Proof.
  intros w [[lx ly] lz] [[hx hy] hz] base block nx ny nz Hs (C1 & C2 & C3 & C4 & C5 & C6) Ex Ey Ez (S1 & S2 & S3).
  assert (N0 : forall l h n, 0 <= l -> w_size w < h - l -> h <= IZR n * w_size w -> (0 <= round_even (l / w_size w) < n)%Z /\ (round_even (l / w_size w) < round_even (h / w_size w))%Z /\ (0 <= n)%Z).
  { intros l h n Hl Hd Hh. assert (El : l = l / w_size w * w_size w) by (field; lra). assert (Eh : h = h / w_size w * w_size w) by (field; lra). set (a := l / w_size w) in *. set (b := h / w_size w) in *.
    assert (Ha : 0 <= a) by nra. assert (Hab : 1 < b - a) by nra. assert (Hb : b <= IZR n) by nra. pose proof (round_bounds a). pose proof (round_bounds b).
    assert (H1 : (round_even a < round_even b)%Z) by (apply lt_IZR; lra). assert (H2 : (round_even b <= n)%Z). { apply IZR_lt_half. lra. } pose proof (round_nonneg a Ha). lia. }
  destruct (N0 lx hx nx ltac:(lra) S1 ltac:(lra)) as (X1 & X2 & X3). destruct (N0 ly hy ny ltac:(lra) S2 ltac:(lra)) as (Y1 & Y2 & Y3).
  (* the first layer top above the bottom of the block *)
  set (q := (lz - fst (w_z w)) / w_size w). assert (Eq : lz - fst (w_z w) = q * w_size w) by (unfold q; field; lra). assert (Hq : 0 <= q) by (apply Rmult_le_pos; [lra|left; now apply Rinv_0_lt_compat]).
  set (k := (if Reqb q (IZR (Rfloor q)) && (1 <=? Rfloor q)%Z then Rfloor q else Rfloor q + 1)%Z). destruct (Rfloor_bounds q) as [F1 F2].
  assert (F0 : (0 <= Rfloor q)%Z) by (apply IZR_lt_half; lra).
  assert (Hk : (1 <= k)%Z /\ q <= IZR k <= q + 1).
  { unfold k. destruct (Reqb_spec q (IZR (Rfloor q))) as [E|E]; cbn [andb]; [|rewrite plus_IZR; split; [lia|lra]]. destruct (Z.leb_spec 1 (Rfloor q)); [split; [lia|lra]|]. rewrite plus_IZR. split; [lia|]. assert (Rfloor q = 0)%Z by lia. lra. }
  destruct Hk as [K1 K2]. assert (K3 : (k <= nz)%Z) by (apply le_IZR; nra).
  exists k, (round_even (lx / w_size w)), (round_even (ly / w_size w)). split; [lia|]. split; [lia|]. split; [lia|]. unfold block_layer. rewrite Ex, Ey. cbn [fst snd].
  rewrite !long_mult by assumption. rewrite voxel_grid by lia. f_equal.
  assert (T1 : q * w_size w <= IZR k * w_size w) by (apply Rmult_le_compat_r; lra). assert (T2 : IZR k * w_size w <= (q + 1) * w_size w) by (apply Rmult_le_compat_r; lra).
  rewrite (proj2 (Rleb_true lz (fst (w_z w) + IZR k * w_size w))) by lra. rewrite (proj2 (Rleb_true (fst (w_z w) + IZR k * w_size w) hz)) by (cbn beta in *; lra).
  rewrite (proj2 (in_slice_spec nx (round_even (lx / w_size w)) (round_even (hx / w_size w)) _ ltac:(lia) ltac:(lia) X1)) by lia.
  rewrite (proj2 (in_slice_spec ny (round_even (ly / w_size w)) (round_even (hy / w_size w)) _ ltac:(lia) ltac:(lia) Y1)) by lia. reflexivity.
Qed.
Print Assumptions C63_present.
(* C63 is false for blocks of the size of a voxel: at 3/2 voxels both ends are rounded to 2, and the block is nowhere. *)
Theorem C63_absent_refuted :
  let w := World (4, 4) (0, 4) 1 in
  exists g rs rl, in_unit rs /\ in_unit rl /\ new_block_gen w (Some (1, 1, 1)) None = Ok g /\
  let '(low, high) := block_coords w g rs O123 rl in contained w low high /\
  forall base block z i j v, voxel (block_layer low high base block z (w_lw w) (w_size w)) i j = Some v -> v = base.
Proof.
  cbn zeta. exists (BlockGen (Some (1, 1, 1)) (4, 4, 4 - 0)), (0, 0, 0), (1 / 2, 1 / 2, 1 / 2). split; [cbn; lra|]. split; [cbn; lra|]. split; [reflexivity|].
  unfold block_coords. cbn [b_max b_size pick3 w_lw w_z w_size fst snd lift3]. unfold uniform. split; [unfold contained; cbn [w_lw w_z fst snd]; lra|].
  intros base block z i j v. unfold block_layer. cbn [fst snd].
  replace ((0 + (4 - 1 - 0) * (1 / 2)) / 1) with (3 / 2) by lra. replace ((0 + (4 - 1 - 0) * (1 / 2) + 1) / 1) with (5 / 2) by lra.
  assert (R1 : round_even (3 / 2) = 2%Z). { unfold round_even. rewrite (Rfloor_unique (3 / 2) 1) by lra. destruct (Rltb_spec (3 / 2 - 1) (1 / 2)); [lra|]. destruct (Rltb_spec (1 / 2) (3 / 2 - 1)); [lra|]. reflexivity. }
  assert (R2 : round_even (5 / 2) = 2%Z). { unfold round_even. rewrite (Rfloor_unique (5 / 2) 2) by lra. destruct (Rltb_spec (5 / 2 - 2) (1 / 2)); [lra|]. destruct (Rltb_spec (1 / 2) (5 / 2 - 2)); [lra|]. reflexivity. }
  rewrite R1, R2. intros E.
  assert (HS : forall n k, in_slice n 2 2 k = false) by (intros n k; unfold in_slice; destruct (Z.leb_spec (clip n 2) k), (Z.ltb_spec k (clip n 2)); (reflexivity || lia)).
  unfold voxel, grid in E. rewrite nth_error_map in E. destruct (nth_error (seq _ _) (Z.to_nat i)); [|discriminate]. cbn [option_map] in E. rewrite nth_error_map in E. destruct (nth_error (seq _ _) (Z.to_nat j)); [|discriminate]. cbn [option_map] in E. injection E as <-.
  rewrite !HS, !andb_false_r. reflexivity.
Qed.
Print Assumptions C63_absent_refuted.
(* C63. The materials: the target is the X0 of the block; sorted, it does not exceed the background's; enforced, the drawn materials differ. *)
Theorem C63_materials :
  forall X0 materials w g sort_x0 enforce draws rs o rl f t,
  random_block X0 materials w g sort_x0 enforce draws rs o rl = Some (Ok (f, t)) ->
  exists bkg block a b base, In (bkg, block) draws /\ x0_of X0 materials bkg = Ok a /\ x0_of X0 materials block = Ok b /\
    ((t = b /\ base = a) \/ (sort_x0 = true /\ t = a /\ base = b)) /\
    (sort_x0 = true -> t <= base) /\ (enforce = true -> bkg <> block) /\
    f = (let '(low, high) := block_coords w g rs o rl in block_layer low high base t).
Proof.
  intros X0 ms w g srt enf draws rs o rl f t H. unfold random_block in H.
  assert (HD : forall ds x y, draw_materials enf ds = Some (x, y) -> In (x, y) ds /\ (enf = true -> x <> y)).
  { induction ds as [|[p q] ds IH]; intros x y E; [discriminate|]. cbn in E. destruct (Nat.eqb_spec p q) as [->|N]; cbn [andb] in E; [destruct enf; [|injection E as <- <-; split; [left; reflexivity|discriminate]]|injection E as <- <-; split; [left; reflexivity|auto]].
    destruct (IH x y E) as [A B]. split; [right; exact A|exact B]. }
  destruct (draw_materials enf draws) as [[bkg block]|] eqn:Ed; [|discriminate]. destruct (HD draws bkg block Ed) as [HI HN]. injection H as H.
  destruct (x0_of X0 ms bkg) as [a|] eqn:Ea; [|discriminate]. destruct (x0_of X0 ms block) as [b|] eqn:Eb; [|discriminate]. cbn [bind] in H.
  destruct (block_coords w g rs o rl) as [low high] eqn:Ec. destruct (srt && Rltb a b) eqn:E.
  - injection H as <- <-. exists bkg, block, a, b, b. apply andb_prop in E as [E1 E2]. apply Rltb_true in E2. repeat split; auto. intros; lra.
  - injection H as <- <-. exists bkg, block, a, b, a. repeat split; auto. intros ->. cbn in E. apply Rltb_false in E. exact E.
Qed.
Print Assumptions C63_materials.
Theorem C63_block_present :
  forall X0 materials w g draw rs o rl f t, block_present X0 materials w g draw rs o rl = Ok (f, t) ->
  exists a, x0_of X0 materials 0 = Ok a /\ x0_of X0 materials draw = Ok t /\ f = (let '(low, high) := block_coords w g rs o rl in block_layer low high a t).
Proof.
  intros X0 ms w g d rs o rl f t H. unfold block_present in H. destruct (x0_of X0 ms 0) as [a|]; [|discriminate]. destruct (x0_of X0 ms d) as [b|]; [|discriminate]. cbn [bind] in H.
  destruct (block_coords w g rs o rl) as [low high]. injection H as <- <-. exists a. auto.
Qed.
Print Assumptions C63_block_present.
(* C63. Enforcing different materials with a single one never ends, whatever is drawn. *)
Theorem C63_hangs :
  forall X0 w g sort_x0 m rs o rl draws, Forall (fun p => fst p < length [m] /\ snd p < length [m])%nat draws ->
  random_block X0 [m] w g sort_x0 true draws rs o rl = None.
Proof.
  intros X0 w g srt m rs o rl draws HF. unfold random_block. replace (draw_materials true draws) with (@None (nat * nat)); [reflexivity|]. symmetry.
  induction HF as [|[p q] ds [H1 H2] HF IH]; [reflexivity|]. cbn in *. assert (p = 0%nat) by lia. assert (q = 0%nat) by lia. subst. exact IH.
Qed.
Print Assumptions C63_hangs.
Theorem C63_hang_refuted : exists X0 materials w g rs o rl, forall draws, Forall (fun p => fst p < length materials /\ snd p < length materials)%nat draws ->
  random_block X0 materials w g false true draws rs o rl = None.
Proof.
  exists [("lead", 1)]%string, ["lead"%string], (World (1, 1) (0, 1) (1 / 10)), (BlockGen None (1, 1, 1)), (0, 0, 0), O123, (0, 0, 0). intros draws. apply C63_hangs.
Qed.
Print Assumptions C63_hang_refuted.
Example C63_case : let w := World (1, 1) (0, 1 / 2) (1 / 10) in
  let '(low, high) := ((1 / 4, 1 / 4, 1 / 8), (3 / 4, 1 / 2, 3 / 8)) in contained w low high /\ (let '(sx, sy, sz) := sizes_of low high in w_size w < sx /\ w_size w < sy /\ w_size w <= sz).
Proof. cbn. repeat split; lra. Qed.

(* C81. Voxel layouts have the shape of the layer and only X0s of the materials. *)
Theorem C81_voxels :
  forall X0 materials draw lw size (nx ny : nat), 0 < size -> fst lw = INR nx * size -> snd lw = INR ny * size ->
  (forall m, In m materials -> exists x, dget String.eqb X0 m = Ok x) -> (forall i, (draw i < length materials)%nat) ->
  exists rows, voxel_layer X0 materials draw lw size = Ok rows /\ length rows = nx /\
    Forall (fun r => length r = ny /\ Forall (fun x => exists m, In m materials /\ dget String.eqb X0 m = Ok x) r) rows.
Proof.
  intros X0 ms draw lw size nx ny Hs Ex Ey HM HD.
  assert (MM : forall {A B} (f : A -> res B) (P : A -> B -> Prop) l, (forall a, In a l -> exists b, f a = Ok b /\ P a b) -> exists bs, mapM f l = Ok bs /\ Forall2 P l bs).
  { intros A B f P l. induction l as [|a l IH]; intros H; [exists []; split; [reflexivity|constructor]|]. destruct (H a (or_introl eq_refl)) as (b & E & Hb). destruct IH as (bs & E' & F); [intros; apply H; right; assumption|]. exists (b :: bs). cbn. rewrite E. cbn. rewrite E'. split; [reflexivity|now constructor]. }
  destruct (MM _ _ (dget String.eqb X0) (fun m x => In m ms /\ dget String.eqb X0 m = Ok x) ms) as (x0s & E0 & F0). { intros m Hm. destruct (HM m Hm) as (x & Hx). eauto. }
  assert (HL : length x0s = length ms) by (clear - F0; induction F0; cbn; congruence).
  assert (HX : forall i, (i < length ms)%nat -> exists x, Generation.get x0s i = Ok x /\ exists m, In m ms /\ dget String.eqb X0 m = Ok x).
  { intros i Hi. unfold Generation.get. destruct (nth_error x0s i) as [x|] eqn:E; [|apply nth_error_None in E; lia]. exists x. split; [reflexivity|]. apply nth_error_In in E. clear - E F0. 
    assert (G : forall l l', Forall2 (fun m x => In m ms /\ dget String.eqb X0 m = Ok x) l l' -> In x l' -> exists m, In m ms /\ dget String.eqb X0 m = Ok x) by (intros l l' F; induction F as [|m y l l' H F IH]; intros Hx; [destruct Hx|destruct Hx as [<-|Hx]; eauto]). exact (G _ _ F0 E). }
  unfold voxel_layer. rewrite E0. cbn [bind]. rewrite Ex, Ey, !INR_IZR_INZ, !long_mult by (try assumption; lia). rewrite !Nat2Z.id.
  destruct (MM _ _ (fun i => mapM (fun j => Generation.get x0s (draw (i * ny + j)%nat)) (seq 0 ny)) (fun _ r => length r = ny /\ Forall (fun x => exists m, In m ms /\ dget String.eqb X0 m = Ok x) r) (seq 0 nx)) as (rows & E & F).
  { intros i _. destruct (MM _ _ (fun j => Generation.get x0s (draw (i * ny + j)%nat)) (fun _ x => exists m, In m ms /\ dget String.eqb X0 m = Ok x) (seq 0 ny)) as (r & E & F). { intros j _. apply HX, HD. }
    exists r. split; [exact E|]. split; [clear - F; rewrite <- (seq_length ny 0); induction F; cbn; congruence|]. clear - F. induction F; constructor; auto. }
  exists rows. split; [exact E|]. split; [clear - F; rewrite <- (seq_length nx 0); induction F; cbn; congruence|]. clear - F. induction F; constructor; auto.
Qed.
Print Assumptions C81_voxels.
Example C81_case : voxel_layer [("lead"%string, 1 / 200)] ["lead"%string] (fun _ => 0%nat) (2, 1) 1 = Ok [[1 / 200]; [1 / 200]].
Proof.
  unfold voxel_layer. cbn [mapM dget]. rewrite String.eqb_refl. cbn [bind fst snd]. replace (2 / 1) with (IZR 2) by (cbn; lra). replace (1 / 1) with (IZR 1) by lra. rewrite !long_pos by lra. rewrite (Rfloor_unique 2 2), (Rfloor_unique 1 1) by lra. reflexivity.
Qed.
