(* Model of optimisation/data/passives.py: the block and voxel generators, and PassiveYielder.
   Random numbers are arguments: fractions r in [0, 1) for np.random.uniform, indices for randint, choice and shuffle. *)
From Coq Require Import ZArith.
From Verif Require Export Base.Res Base.XR Model.Generation Model.Utils.
Open Scope R_scope.
Open Scope list_scope.

Definition vec3 : Type := (R * R * R)%type.
Definition lift3 (f : R -> R -> R) (a b : vec3) : vec3 := let '(x, y, z) := a in let '(x', y', z') := b in (f x x', f y y', f z z').

(* np.round: to the nearest integer, halves to the even one *)
Definition round_even (x : R) : Z :=
  let k := Rfloor x in let d := x - IZR k in
  if Rltb d (1 / 2) then k else if Rltb (1 / 2) d then (k + 1)%Z else if Z.even k then k else (k + 1)%Z.

(* 49-58  what the generators keep of the volume: lw, z_range, size *)
Record world := World { w_lw : R * R; w_z : R * R; w_size : R }.

(* 111-128  AbsBlockPassiveGenerator.__init__: block_size and block_size_max; a missing block_size_max_half is None *)
Record block_gen := BlockGen { b_size : option vec3; b_max : vec3 }.
Definition new_block_gen (w : world) (block_size : option vec3) (max_half : option bool) : res block_gen :=
  let m := (fst (w_lw w), snd (w_lw w), snd (w_z w) - fst (w_z w)) in
  match block_size, max_half with
  | None, None => Err ValueError
  | _, _ => Ok (BlockGen block_size (match max_half with Some true => lift3 (fun a _ => a / 2) m m | _ => m end))
  end.

(* np.random.choice(block_size, 3, replace=False): the three sizes in another order *)
Inductive order3 := O123 | O132 | O213 | O231 | O312 | O321.
Definition pick3 (o : order3) (s : vec3) : vec3 :=
  let '(a, b, c) := s in
  match o with O123 => (a, b, c) | O132 => (a, c, b) | O213 => (b, a, c) | O231 => (b, c, a) | O312 => (c, a, b) | O321 => (c, b, a) end.

(* 130-151  _get_block_coords: low and high corner; rs: random numbers for the sizes, o: for the orientation, rl: for the position *)
Definition block_coords (w : world) (g : block_gen) (rs : vec3) (o : order3) (rl : vec3) : vec3 * vec3 :=
  let '(mx, my, mz) := b_max g in let '(r1, r2, r3) := rs in let '(l1, l2, l3) := rl in
  let s := match b_size g with
           | None => (uniform (w_size w) mx r1, uniform (w_size w) my r2, uniform (w_size w) mz r3)
           | Some s => pick3 o s
           end in
  let '(sx, sy, sz) := s in
  let low := (uniform 0 (fst (w_lw w) - sx) l1, uniform 0 (snd (w_lw w) - sy) l2, uniform (fst (w_z w)) (snd (w_z w) - sz) l3) in
  (low, lift3 Rplus low s).

(* Tensor.long of a positive number: towards zero *)
Definition long (x : R) : Z := if Rltb x 0 then (- Rfloor (- x))%Z else Rfloor x.
(* Python: the elements of an axis of length n that a[lo:hi] denotes *)
Definition clip (n i : Z) : Z := (if i <? 0 then Z.max 0 (n + i) else Z.min n i)%Z.
Definition in_slice (n lo hi i : Z) : bool := (clip n lo <=? i)%Z && (i <? clip n hi)%Z.
Definition grid {A} (nx ny : Z) (f : Z -> Z -> A) : list (list A) :=
  map (fun i => map (fun j => f (Z.of_nat i) (Z.of_nat j)) (seq 0 (Z.to_nat ny))) (seq 0 (Z.to_nat nx)).
(* 210-217, 258-265  the layout function of both block generators: a layer's map, from the z of its top, lw and size *)
Definition block_layer (low high : vec3) (base_x0 block_x0 : R) (z : R) (lw : R * R) (size : R) : list (list R) :=
  let '(lx, ly, lz) := low in let '(hx, hy, hz) := high in
  let nx := long (fst lw / size) in let ny := long (snd lw / size) in
  let on := Rleb lz z && Rleb z hz in
  grid nx ny (fun i j =>
    if on && in_slice nx (round_even (lx / size)) (round_even (hx / size)) i && in_slice ny (round_even (ly / size)) (round_even (hy / size)) j
    then block_x0 else base_x0).

(* 200-204  the materials: drawn again until they differ, if this is enforced; draws: randint, two at a time; None: the draws do not suffice *)
Fixpoint draw_materials (enforce_diff : bool) (draws : list (nat * nat)) : option (nat * nat) :=
  match draws with
  | [] => None
  | (bkg, block) :: ds => if Nat.eqb bkg block && enforce_diff then draw_materials enforce_diff ds else Some (bkg, block)
  end.
Section Gen.
Variables (X0 : list (string * R)) (materials : list string) (w : world).
Definition x0_of (i : nat) : res R := m <- Generation.get materials i ;; dget String.eqb X0 m.
Definition layout : Type := R -> R * R -> R -> list (list R).
(* 190-219  RandomBlockPassiveGenerator._generate: layout and target; None: the loop has not ended *)
Definition random_block (g : block_gen) (sort_x0 enforce_diff : bool) (draws : list (nat * nat)) (rs : vec3) (o : order3) (rl : vec3) : option (res (layout * R)) :=
  match draw_materials enforce_diff draws with
  | None => None
  | Some (bkg, block) => Some (
      base_x0 <- x0_of bkg ;;
      block_x0 <- x0_of block ;;
      let '(block_x0, base_x0) := if sort_x0 && Rltb base_x0 block_x0 then (base_x0, block_x0) else (block_x0, base_x0) in
      let '(low, high) := block_coords w g rs o rl in
      Ok (block_layer low high base_x0 block_x0, block_x0))
  end.
(* 241-267  BlockPresentPassiveGenerator._generate *)
Definition block_present (g : block_gen) (draw : nat) (rs : vec3) (o : order3) (rl : vec3) : res (layout * R) :=
  base_x0 <- x0_of 0%nat ;;
  block_x0 <- x0_of draw ;;
  let '(low, high) := block_coords w g rs o rl in
  Ok (block_layer low high base_x0 block_x0, block_x0).
(* 282-296  VoxelPassiveGenerator: draws: torch.randint for the flattened voxels of the layer *)
Definition voxel_layer (draw : nat -> nat) (lw : R * R) (size : R) : res (list (list R)) :=
  x0s <- mapM (dget String.eqb X0) materials ;;
  let nx := Z.to_nat (long (fst lw / size)) in let ny := Z.to_nat (long (snd lw / size)) in
  mapM (fun i => mapM (fun j => Generation.get x0s (draw (i * ny + j)%nat)) (seq 0 ny)) (seq 0 nx).
End Gen.

(* 299-338  PassiveYielder.  A list entry is a tuple or only a layout *)
Section Yield.
Context {L T : Type}.
Inductive entry := Pair (f : L) (t : option T) | Plain (f : L).
Definition yielded (e : entry) : L * option T := match e with Pair f t => (f, t) | Plain f => (f, None) end.
(* the passives: the list, which is shuffled in place, or a generator with the results of its calls to come *)
Inductive source := Listed (l : list entry) | Generated (outs : nat -> res (L * option T)) (calls : nat).
Record yielder := Yielder { y_source : source; y_n : nat; y_shuffle : bool }.
(* 311-322 *)
Definition new_yielder (s : source) (n_passives : option nat) (shuffle : bool) : res yielder :=
  match s with
  | Generated _ _ => match n_passives with None => Err ValueError | Some n => Ok (Yielder s n shuffle) end
  | Listed l => Ok (Yielder s (length l) shuffle)
  end.
(* random.shuffle: for i from the last index down to 1, exchange x[i] with x[j], j a random index <= i *)
Definition set_nth {A} (i : nat) (x : A) (l : list A) : list A := firstn i l ++ match skipn i l with [] => [] | _ :: l' => x :: l' end.
Definition exchange {A} (i j : nat) (l : list A) : list A :=
  match nth_error l i, nth_error l j with Some a, Some b => set_nth j a (set_nth i b l) | _, _ => l end.
Fixpoint shuffle_from {A} (i : nat) (draw : nat -> nat) (l : list A) : list A :=
  match i with 0%nat => l | S i' => shuffle_from i' draw (exchange i (draw i mod (i + 1))%nat l) end.
Definition shuffled {A} (draw : nat -> nat) (l : list A) : list A := shuffle_from (length l - 1) draw l.

(* 327-338  __iter__ is a Python generator: it runs up to the next yield whenever the next item is asked for *)
Inductive iterator := NotStarted | At (k : nat) | Finished.
(* the next item, if any; draw: random numbers used if the list is shuffled now *)
Definition next (draw : nat -> nat) (y : yielder) (it : iterator) : res (option (L * option T)) * yielder * iterator :=
  let at_ y k :=
    match y_source y with
    | Listed l => match nth_error l k with Some e => (Ok (Some (yielded e)), y, At (S k)) | None => (Ok None, y, Finished) end
    | Generated outs calls =>
        if Nat.ltb k (y_n y) then
          let y' := Yielder (Generated outs (S calls)) (y_n y) (y_shuffle y) in
          match outs calls with Ok x => (Ok (Some x), y', At (S k)) | Err e => (Err e, y', Finished) end
        else (Ok None, y, Finished)
    end in
  match it with
  | Finished => (Ok None, y, Finished)
  | At k => at_ y k
  | NotStarted =>
      match y_source y with
      | Listed l => at_ (if y_shuffle y then Yielder (Listed (shuffled draw l)) (y_n y) (y_shuffle y) else y) 0%nat
      | _ => at_ y 0%nat
      end
  end.
(* for p in passives: collects the items up to the end or an exception; fuel: number of items asked for *)
Fixpoint consume (fuel : nat) (draw : nat -> nat) (y : yielder) (it : iterator) : list (L * option T) * option exn * yielder * iterator :=
  match fuel with
  | 0%nat => ([], None, y, it)
  | S fuel' =>
      match next draw y it with
      | (Ok (Some x), y', it') => let '(xs, e, y'', it'') := consume fuel' draw y' it' in (x :: xs, e, y'', it'')
      | (Ok None, y', it') => ([], None, y', it')
      | (Err e, y', it') => ([], Some e, y', it')
      end
  end.
End Yield.
