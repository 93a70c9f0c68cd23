(* Property C93: the small-walls benchmark. *)
From Coq Require Import ZArith Reals Lra Lia List Arith Bool.
From Verif Require Import Base.Res Base.RUtil Model.Walls Spec.WallsSpec Spec.LorrySpec Proofs.PassiveP Proofs.WallsP.
Import ListNotations.
Open Scope list_scope.
Open Scope nat_scope.

(* C93. A wall from ground g to height h, begun at (x, y), for any random numbers: it stands on a path of cells with common sides, which begins at (x, y), stays on the grid, does not
   meet itself or what stood there before, and whose columns are all raised from g to h and nothing else; it is shorter than the smallest length only if it was blocked. *)
Theorem C93_wall :
  forall nz nx ny stop_k turn_k min_length ds m g h x y d m', g < h -> h <= nz -> on_grid nx ny (x, y) ->
  build nz nx ny stop_k turn_k min_length ds m g h x y d 0 0 = Ok (Some m') ->
  exists path, NoDup path /\ chain path /\ Forall (fun p => on_grid nx ny p /\ ~ occupied nz m p) path /\ walled nz m m' g h path /\
    (path = [] <-> occupied nz m (x, y)) /\ (path <> [] -> hd_error path = Some (x, y)) /\
    (forall pre p, path = pre ++ [p] -> min_length <= length path \/ blocked nz nx ny m' p).
Proof. intros. eapply (build_path nz nx ny stop_k turn_k min_length ds m g h x y d 0 0); eauto. Qed.
Print Assumptions C93_wall.
(* C93. Building a wall ends, after at most one round for each cell of the grid, for any random numbers. *)
Theorem C93_ends :
  forall nz nx ny stop_k turn_k min_length ds m g h x y d, g < h -> h <= nz -> on_grid nx ny (x, y) -> nx * ny <= length ds ->
  exists m', build nz nx ny stop_k turn_k min_length ds m g h x y d 0 0 = Ok (Some m').
Proof. intros. apply build_ends; auto. pose proof (open_le nz nx ny m). lia. Qed.
Print Assumptions C93_ends.

(* every column of the map is empty or a wall from g up to some height between g + min_height and the top layer, which stays free *)
Definition standing (nz nx ny min_height g : nat) (m : nat -> nat -> nat -> bool) : Prop :=
  (forall z x y, m z x y = true -> z < nz /\ on_grid nx ny (x, y)) /\
  forall x y, on_grid nx ny (x, y) -> (forall z, m z x y = false) \/ exists h, g + min_height <= h < nz /\ forall z, m z x y = true <-> g <= z < h.
Lemma randint_ok lo hi u : lo < hi -> exists k, randint lo hi u = Ok k /\ lo <= k < hi.
Proof. intros H. unfold randint. destruct (Nat.leb_spec hi lo); [lia|]. eexists. split; [reflexivity|]. pose proof (Nat.mod_upper_bound u (hi - lo)). lia. Qed.
Lemma first_moves_any nx ny x y : first_moves nx ny x y <> [].
Proof. unfold first_moves. destruct (x =? 0), (x =? nx - 1), (y =? 0), (y =? ny - 1); cbn; discriminate. Qed.
Lemma one_wall_ok nz nx ny stop_k turn_k min_length min_height g m u : 0 < nx -> 0 < ny -> 0 < min_height -> g + min_height < nz ->
  nx * ny <= length (u_rounds u) -> standing nz nx ny min_height g m ->
  exists m', one_wall nz nx ny stop_k turn_k min_length min_height g (Some m) u = Ok (Some m') /\ standing nz nx ny min_height g m' /\
    (forall z x y, m z x y = true -> m' z x y = true) /\ exists c, on_grid nx ny c /\ occupied nz m' c.
Proof.
  intros Hx Hy Hm Hg Hl [S1 S2]. unfold one_wall.
  destruct (randint_ok (g + min_height) nz (u_height u) Hg) as (h & -> & Hh). cbn [bind]. destruct (randint_ok 0 nx (u_x u) Hx) as (x & -> & Hx'). cbn [bind]. destruct (randint_ok 0 ny (u_y u) Hy) as (y & -> & Hy'). cbn [bind].
  destruct (choice_ok (first_moves nx ny x y) (u_move u) (first_moves_any nx ny x y)) as (d & -> & _). cbn [bind].
  assert (Hxy : on_grid nx ny (x, y)) by (split; cbn; lia).
  destruct (C93_ends nz nx ny stop_k turn_k min_length (u_rounds u) m g h x y d ltac:(lia) ltac:(lia) Hxy Hl) as (m' & E). rewrite E. exists m'. split; [reflexivity|].
  destruct (C93_wall nz nx ny stop_k turn_k min_length (u_rounds u) m g h x y d m' ltac:(lia) ltac:(lia) Hxy E) as (path & _ & _ & F & W & E0 & E1 & _). rewrite Forall_forall in F. split; [split|split].
  - intros z a b H. apply W in H as [H|(H & H')]; [now apply S1|]. split; [tauto|]. now apply F.
  - intros a b Hab. destruct (in_dec (fun p q : cell => ltac:(decide equality; apply Nat.eq_dec)) (a, b) path) as [Hi|Hi].
    + right. exists h. split; [exact Hh|]. intros z. rewrite (W z a b). split; [|intros; right; split; [exact Hi|lia]]. intros [H|(_ & H)]; [|tauto]. exfalso. apply (F _ Hi). exists z. destruct (S1 _ _ _ H). auto.
    + destruct (S2 a b Hab) as [H|(h' & Hh' & H)]; [left|right; exists h'; split; [exact Hh'|]].
      * intros z. destruct (m' z a b) eqn:Em; [|reflexivity]. apply W in Em as [Em|(Em & _)]; [rewrite H in Em; discriminate|contradiction].
      * intros z. rewrite <- (H z), (W z a b). tauto.
  - intros z a b H. apply W. auto.
  - destruct path as [|p path].
    + exists (x, y). split; [exact Hxy|]. destruct (proj1 E0 eq_refl) as (z & Hz & Hm'). exists z. split; [exact Hz|]. apply W. auto.
    + exists p. split; [apply F; now left|]. exists g. split; [lia|]. apply W. right. destruct p. cbn [fst snd]. split; [now left|lia].
Qed.
(* C93. For any random numbers, if the volume is high enough for the smallest walls: generating ends; there is a ground in the lower half of the volume, at least one wall, and all
   walls stand on the ground, are at least min_height high and leave the top layer free. *)
Theorem C93_walls :
  forall nz nx ny stop_k turn_k min_length min_height u_ground us, 0 < nx -> 0 < ny -> 0 < min_height -> 2 <= nz -> nz / 2 + min_height <= nz ->
  us <> [] -> Forall (fun u => nx * ny <= length (u_rounds u)) us ->
  exists g m, walls nz nx ny stop_k turn_k min_length min_height u_ground us = Ok (Some m) /\ g < nz / 2 /\
    standing nz nx ny min_height g m /\ exists c, on_grid nx ny c /\ occupied nz m c.
Proof.
  intros nz nx ny stop_k turn_k min_length min_height ug us Hx Hy Hm Hn Hh Hu HF. unfold walls.
  assert (H2 : 0 < nz / 2) by (apply Nat.div_str_pos; lia). destruct (randint_ok 0 (nz / 2) ug H2) as (g & -> & Hg). cbn [bind]. exists g.
  assert (G : forall m, standing nz nx ny min_height g m -> exists m', foldM (one_wall nz nx ny stop_k turn_k min_length min_height g) us (Some m) = Ok (Some m') /\ standing nz nx ny min_height g m' /\
    ((exists c, on_grid nx ny c /\ occupied nz m c) \/ us <> [] -> exists c, on_grid nx ny c /\ occupied nz m' c)).
  { clear Hu. induction us as [|u us IH]; intros m S; [exists m; split; [reflexivity|]; split; [exact S|]; intros [H|H]; [exact H|congruence]|].
    inversion HF; subst. destruct (one_wall_ok nz nx ny stop_k turn_k min_length min_height g m u) as (m1 & E & S' & Mo & Ex); auto; [lia|].
    destruct (IH ltac:(assumption) m1 S') as (m' & E' & S'' & Ex'). exists m'. split; [etransitivity; [|exact E']; cbn [foldM]; rewrite E; reflexivity|]. split; [exact S''|]. auto. }
  destruct (G (fun _ _ _ => false)) as (m & E & S & Ex); [split; [discriminate|auto]|]. exists m. split; [exact E|]. split; [lia|]. split; [exact S|]. apply Ex. now right.
Qed.
Print Assumptions C93_walls.
(* C93. The X0s: of the walls where there is one, of soil elsewhere. *)
Theorem C93_x0 : forall soil wall m z x y, wall <> 0%R -> x0_map soil wall m z x y = if m z x y then wall else soil.
Proof. intros soil wall m z x y Hw. unfold x0_map. destruct (m z x y); [destruct (Reqb_spec wall 0); [congruence|reflexivity]|]. destruct (Reqb_spec 0 0); [reflexivity|congruence]. Qed.
(* C93. The map has the shape of the volume. *)
Theorem C93_shape : forall w nx ny nz, whole w nx ny nz -> walls_shape w = (Z.of_nat nz, Z.of_nat nx, Z.of_nat ny).
Proof.
  intros w nx ny nz (Hs & El & Ez). unfold walls_shape. rewrite El, Ez. cbn [fst snd]. rewrite (INR_IZR_INZ nx), (INR_IZR_INZ ny), !long_mult by (lia || lra).
  replace ((fst (w_z w) + INR nz * w_size w - fst (w_z w)) / w_size w)%R with (IZR (Z.of_nat nz)) by (rewrite INR_IZR_INZ; field; lra). now rewrite round_int.
Qed.
Print Assumptions C93_shape.
(* C93. The first direction leads to the grid, unless it is only one cell wide. *)
Theorem C93_first_move :
  forall nx ny x y d, on_grid nx ny (x, y) -> 2 <= nx -> 2 <= ny -> In d (first_moves nx ny x y) ->
  exists c, on_grid nx ny c /\ next_to (at_z (x, y)) (at_z c) /\ step d (Z.of_nat x) (Z.of_nat y) = at_z c.
Proof.
  intros nx ny x y d [Hx Hy] Hnx Hny Hd. cbn [fst snd] in Hx, Hy. unfold first_moves in Hd.
  assert (K : match d with Up => y < ny - 1 | Right => x < nx - 1 | Down => 0 < y | Left => 0 < x end).
  { destruct (Nat.eqb_spec x 0), (Nat.eqb_spec x (nx - 1)), (Nat.eqb_spec y 0), (Nat.eqb_spec y (ny - 1)); cbn in Hd; repeat (destruct Hd as [<-|Hd]; [lia|]); destruct Hd. }
  exists (match d with Up => (x, y + 1) | Right => (x + 1, y) | Down => (x, y - 1) | Left => (x - 1, y) end).
  destruct d; (split; [split; cbn [fst snd]; lia|]); (split; [unfold next_to, at_z; cbn [fst snd]; lia|]); cbn [step]; unfold at_z; cbn [fst snd]; f_equal; lia.
Qed.
Print Assumptions C93_first_move.

(* a grid of two by three cells, eight layers, ground at 3, two walls: the first one goes up from the first cell to the end of the grid; the second one goes down from the last cell,
   turns to the left and meets the first one *)
Definition straight : draw := Draw 1 1 0.
Definition C93_us : list wall := [Wall 0 0 0 0 (repeat straight 6); Wall 0 1 2 0 (straight :: Draw 1 0 1 :: repeat straight 4)].
Example C93_case_hyps : 0 < 4 /\ 2 <= 8 /\ 8 / 2 + 4 <= 8 /\ Forall (fun u => 2 * 3 <= length (u_rounds u)) C93_us.
Proof. cbn. repeat constructor. Qed.
Lemma rarely a b n : (0 <= b)%R -> (1 <= a)%R -> Rltb a (exp (- b / INR (S n))) = false.
Proof.
  intros Hb Ha. destruct (Rltb_spec a (exp (- b / INR (S n)))) as [H|H]; [|reflexivity]. exfalso. assert (L : (1 < exp (- b / INR (S n)))%R) by lra. rewrite <- exp_0 in L at 1. apply exp_lt_inv in L.
  assert (0 < / INR (S n))%R by (apply Rinv_0_lt_compat, lt_0_INR; lia). unfold Rdiv in L. nra.
Qed.
Lemma surely b : Rltb 0 (exp b) = true.
Proof. destruct (Rltb_spec 0 (exp b)) as [_|H]; [reflexivity|]. pose proof (exp_pos b). lra. Qed.
Example C93_case :
  exists m, walls 8 2 3 10 5 4 4 3 C93_us = Ok (Some m) /\
  map (fun x => map (fun y => filter (fun z => m z x y) (seq 0 8)) (seq 0 3)) (seq 0 2) = [[[3; 4; 5; 6]; [3; 4; 5; 6]; [3; 4; 5; 6]]; [[]; [3; 4; 5; 6]; [3; 4; 5; 6]]].
Proof.
  eexists. split.
  - lazy -[Rltb exp Rdiv INR Ropp IZR raise_at filter]. do 8 (rewrite ?surely, ?rarely by lra; lazy -[Rltb exp Rdiv INR Ropp IZR raise_at filter]). reflexivity.
  - reflexivity.
Qed.

(* C93 is false of low volumes: with six layers and the default height of four, generating raises if the ground is high *)
Theorem C93_low_refuted :
  exists nz nx ny min_height u_ground us, 0 < nx /\ 0 < ny /\ us <> [] /\ min_height < nz /\
  forall stop_k turn_k min_length, walls nz nx ny stop_k turn_k min_length min_height u_ground us = Err ValueError.
Proof. exists 6, 10, 10, 4, 2, [Wall 0 0 0 0 []]. repeat (split; [first [lia|discriminate]|]). intros. reflexivity. Qed.
(* C93 is false of walls of no height, which do not block each other: there are random numbers, of any length, for which building has not ended *)
Definition flat (m : zmap) : Prop := forall z x y, m z x y = false.
Lemma flat_round u ds m x y d len since d' x' y' : flat m -> d_stop u = 1%R -> d_turn u = 0%R -> choice (turns d) (d_pick u) = Ok d' -> step d' (Z.of_nat x) (Z.of_nat y) = (Z.of_nat x', Z.of_nat y') -> x' < 2 -> y' < 2 ->
  exists m', flat m' /\ build 8 2 2 10 5 4 (u :: ds) m 0 0 x y d len since = build 8 2 2 10 5 4 ds m' 0 0 x' y' d' (S len) 0.
Proof.
  intros F E1 E2 E3 E4 Hx Hy. exists (raise_at 8 m 0 0 x y). split; [intros z a b; unfold raise_at; rewrite F; reflexivity|].
  cbn [build]. assert (free 8 m x y = true) as -> by (unfold free; apply forallb_forall; intros z _; now rewrite F). cbv zeta. rewrite E1, E2.
  assert (Rltb 1 (exp (- (10) / INR (S len))) = false) as ->.
  { destruct (Rltb_spec 1 (exp (- (10) / INR (S len)))) as [H|H]; [|reflexivity]. exfalso. rewrite <- exp_0 in H at 1. apply exp_lt_inv in H. assert (0 < / INR (S len))%R by (apply Rinv_0_lt_compat, lt_0_INR; lia). unfold Rdiv in H. nra. }
  rewrite andb_false_r. destruct (Rltb_spec 0 (exp (- (5) / INR (S since)))) as [_|H]; [|exfalso; pose proof (exp_pos (- (5) / INR (S since))); lra].
  rewrite E3. cbn [bind]. rewrite E4, !Nat2Z.id. change (Z.of_nat 2) with 2%Z.
  destruct (Z.leb_spec 2 (Z.of_nat x')), (Z.ltb_spec (Z.of_nat x') 0), (Z.leb_spec 2 (Z.of_nat y')), (Z.ltb_spec (Z.of_nat y') 0); try lia. reflexivity.
Qed.
Theorem C93_flat_refuted :
  exists nz nx ny, 0 < nx /\ 0 < ny /\ forall k, exists ds, length ds = k /\
  build nz nx ny 10%R 5%R 4 ds (fun _ _ _ => false) 0 0 0 0 Left 0 0 = Ok None.
Proof.
  exists 8, 2, 2. split; [lia|]. split; [lia|]. intros k.
  assert (G : forall k x y d, (x, y, d) = (0, 0, Left) \/ (x, y, d) = (0, 1, Up) \/ (x, y, d) = (1, 1, Right) \/ (x, y, d) = (1, 0, Down) ->
    exists ds, length ds = k /\ forall m len since, flat m -> build 8 2 2 10 5 4 ds m 0 0 x y d len since = Ok None).
  { clear k. induction k as [|k IH]; intros x y d H.
    - exists []. split; [reflexivity|]. intros m len since F. cbn [build]. assert (free 8 m x y = true) as -> by (unfold free; apply forallb_forall; intros z _; now rewrite F). reflexivity.
    - destruct H as [[= -> -> ->]|[[= -> -> ->]|[[= -> -> ->]|[= -> -> ->]]]].
      + destruct (IH 0 1 Up ltac:(auto)) as (ds & L & H). exists (Draw 1 0 0 :: ds). split; [cbn; lia|]. intros m len since F. destruct (flat_round (Draw 1 0 0) ds m 0 0 Left len since Up 0 1) as (m' & F' & ->); auto.
      + destruct (IH 1 1 Right ltac:(auto)) as (ds & L & H). exists (Draw 1 0 0 :: ds). split; [cbn; lia|]. intros m len since F. destruct (flat_round (Draw 1 0 0) ds m 0 1 Up len since Right 1 1) as (m' & F' & ->); auto.
      + destruct (IH 1 0 Down ltac:(auto)) as (ds & L & H). exists (Draw 1 0 1 :: ds). split; [cbn; lia|]. intros m len since F. destruct (flat_round (Draw 1 0 1) ds m 1 1 Right len since Down 1 0) as (m' & F' & ->); auto.
      + destruct (IH 0 0 Left ltac:(auto)) as (ds & L & H). exists (Draw 1 0 1 :: ds). split; [cbn; lia|]. intros m len since F. destruct (flat_round (Draw 1 0 1) ds m 1 0 Down len since Left 0 0) as (m' & F' & ->); auto. }
  destruct (G k 0 0 Left ltac:(auto)) as (ds & L & H). exists ds. split; [exact L|]. apply H. intros z x y. reflexivity.
Qed.
Print Assumptions C93_flat_refuted.
(* C93 is false of the layout function, which should give the map of a layer: it raises for every layer *)
Theorem C93_layer_refuted : exists x0s z, forall m, walls_layer x0s z <> Ok m.
Proof. exists (fun _ _ _ => 0%R), 0%R. discriminate. Qed.
