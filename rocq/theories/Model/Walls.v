(* Model of benchmarks/small_walls/data.py.  Random numbers are arguments: any numbers for randint and choice (taken modulo the size of their range), numbers in [0, 1) for
   np.random.random.  min_length, min_height: not negative. *)
From Coq Require Import ZArith Reals Lra.
From Verif Require Export Base.Res Base.RUtil Model.Passives.
Open Scope list_scope.
Open Scope nat_scope.

(* np.random.randint(lo, hi): hi <= lo raises *)
Definition randint (lo hi u : nat) : res nat := if Nat.leb hi lo then Err ValueError else Ok (lo + u mod (hi - lo)).
(* np.random.choice: of nothing raises *)
Definition choice {A} (l : list A) (u : nat) : res A := match nth_error l (u mod length l) with Some a => Ok a | None => Err ValueError end.

Section Walls.
(* zxy_shp; stop_k, turn_k, min_length, min_height *)
Variables (nz nx ny : nat) (stop_k turn_k : R) (min_length min_height : nat).

(* zxy_map, zero or one; nothing outside of the shape *)
Definition zmap : Type := nat -> nat -> nat -> bool.
(* 67  (zxy_map[:, x, y] != 1).all() *)
Definition free (m : zmap) (x y : nat) : bool := forallb (fun z => negb (m z x y)) (seq 0 nz).
(* 68  zxy_map[ground_z:height, x, y] = 1 *)
Definition raise_at (m : zmap) (g h x y : nat) : zmap := fun z a b =>
  m z a b || (Nat.leb g z && Nat.ltb z h && Nat.ltb z nz && Nat.eqb a x && Nat.eqb b y).
(* 0: up, 1: right, 2: down, 3: left *)
Inductive move := Up | Right | Down | Left.
(* 76-78: the directions to turn to *)
Definition turns (d : move) : list move := match d with Right | Left => [Up; Down] | Up | Down => [Right; Left] end.
(* 80-87 *)
Definition step (d : move) (x y : Z) : Z * Z := match d with Up => (x, y + 1)%Z | Right => (x + 1, y)%Z | Down => (x, y - 1)%Z | Left => (x - 1, y)%Z end.
(* the random numbers of one round: two of random(), one for choice *)
Record draw := Draw { d_stop : R; d_turn : R; d_pick : nat }.
(* 65-89  the loop that builds one wall; None: the random numbers do not suffice *)
Fixpoint build (ds : list draw) (m : zmap) (g h x y : nat) (d : move) (len since : nat) : res (option zmap) :=
  if free m x y then
    match ds with
    | [] => Ok None
    | u :: ds =>
        let m := raise_at m g h x y in
        let len := S len in
        let since := S since in
        if Nat.leb min_length len && Rltb (d_stop u) (exp (- stop_k / INR len)) then Ok (Some m)
        else
          '(since, d) <- (if Rltb (d_turn u) (exp (- turn_k / INR since)) then d' <- choice (turns d) (d_pick u) ;; Ok (0, d') else Ok (since, d)) ;;
          let (x', y') := step d (Z.of_nat x) (Z.of_nat y) in
          if (Z.of_nat nx <=? x')%Z || (x' <? 0)%Z || (Z.of_nat ny <=? y')%Z || (y' <? 0)%Z then Ok (Some m)
          else build ds m g h (Z.to_nat x') (Z.to_nat y') d len since
    end
  else Ok (Some m).
(* 53-63  the first directions; list.remove *)
Definition drop (d : move) (l : list move) : list move := filter (fun e => match d, e with Up, Up | Right, Right | Down, Down | Left, Left => false | _, _ => true end) l.
Definition first_moves (x y : nat) : list move :=
  let l := [Up; Right; Down; Left] in
  let l := if Nat.eqb x 0 then drop Left l else if Nat.eqb x (nx - 1) then drop Right l else l in
  if Nat.eqb y 0 then drop Down l else if Nat.eqb y (ny - 1) then drop Up l else l.
(* 49-89  one wall; the random numbers: height, x, y, first direction, and those of the loop *)
Record wall := Wall { u_height : nat; u_x : nat; u_y : nat; u_move : nat; u_rounds : list draw }.
Definition one_wall (g : nat) (m : option zmap) (u : wall) : res (option zmap) :=
  match m with
  | None => Ok None
  | Some m =>
      h <- randint (g + min_height) nz (u_height u) ;;
      x <- randint 0 nx (u_x u) ;;
      y <- randint 0 ny (u_y u) ;;
      d <- choice (first_moves x y) (u_move u) ;;
      build (u_rounds u) m g h x y d 0 0
  end.
(* 43-97  _generate: the walls (one to four), as the map and the target *)
Definition walls (u_ground : nat) (us : list wall) : res (option zmap) :=
  g <- randint 0 (nz / 2) u_ground ;;
  foldM (one_wall g) us (Some (fun _ _ _ => false)).
(* 91-92  x0_map *)
Definition x0_map (x0_soil x0_wall : R) (m : zmap) : nat -> nat -> nat -> R := fun z x y =>
  let v := if m z x y then x0_wall else 0%R in if Reqb v 0 then x0_soil else v.
(* 94-95  the layout function: the result of np.round is a number of numpy, which has no method long *)
Definition walls_layer (x0s : nat -> nat -> nat -> R) (z : R) : res (list (list R)) := Err AttributeError.
End Walls.
(* 40  zxy_shp *)
Definition walls_shape (w : world) : Z * Z * Z :=
  (round_even ((snd (w_z w) - fst (w_z w)) / w_size w), long (fst (w_lw w) / w_size w), long (snd (w_lw w) / w_size w)).
