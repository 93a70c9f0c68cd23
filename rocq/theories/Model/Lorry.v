(* Model of benchmarks/u_lorry/data.py.  Random numbers are arguments, as in Model/Passives.v. *)
From Verif Require Export Model.Passives.
Open Scope R_scope.
Open Scope list_scope.

(* 29-34  what __init__ computes (n_u_voxels is not used): xy_shp; bkg_z_range; szs *)
Record lorry := Lorry { l_shp : Z * Z; l_cargo : R * R; l_sizes : list vec3 }.
(* torch.combinations(arange(1, n + 1), r=3, with_replacement=True) *)
Definition combos (n : nat) : list (nat * nat * nat) :=
  flat_map (fun i => flat_map (fun j => map (fun k => (i, j, k)) (seq j (n + 1 - j))) (seq i (n + 1 - i))) (seq 1 n).
(* 29-41  __init__ with _compute_sizes *)
Definition new_lorry (w : world) (u_volume fill_frac : R) : res lorry :=
  let shp := (long (fst (w_lw w) / w_size w), long (snd (w_lw w) / w_size w)) in
  let cargo := (fst (w_z w) + w_size w, fill_frac * snd (w_z w)) in
  let max_n := Z.max (Z.max (fst shp) (snd shp)) (round_even ((snd cargo - fst cargo) / w_size w)) in
  let szs := filter (fun s => let '(i, j, k) := s in Reqb (INR (i * j * k) * w_size w ^ 3) u_volume) (combos (Z.to_nat max_n)) in
  match szs with
  | [] => Err ValueError
  | _ => Ok (Lorry shp cargo (map (fun s => let '(i, j, k) := s in (INR i, INR j, INR k)) szs))
  end.
(* 43-57  _get_block_coords: x and y in voxels, z in metres; i: np.random.randint, o: np.random.choice, r: np.random.uniform *)
Definition lorry_block (w : world) (g : lorry) (i : nat) (o : order3) (r : vec3) : res (vec3 * vec3) :=
  s <- Generation.get (l_sizes g) i ;;
  let '(sx, sy, sz) := pick3 o s in let '(r1, r2, r3) := r in
  let sz := sz * w_size w in
  let low := (IZR (long (uniform 0 (IZR (fst (l_shp g)) - sx) r1)), IZR (long (uniform 0 (IZR (snd (l_shp g)) - sy) r2)),
              uniform (fst (l_cargo g)) (snd (l_cargo g) - sz) r3) in
  Ok (low, lift3 Rplus low (sx, sy, sz)).
(* 64-77  the layout function: a layer's map, from the z of its top; draw: torch.randint for the flattened voxels of the layer; block: the corners, if block_present *)
Definition lorry_layer (x0_lorry air uranium : R) (bkg_x0s : list R) (g : lorry) (block : option (vec3 * vec3)) (draw : nat -> nat) (z : R) : res (list (list R)) :=
  let (nx, ny) := l_shp g in
  mapM (fun i => mapM (fun j =>
    x0 <- (if Rleb z (fst (l_cargo g)) then Ok x0_lorry
           else if Rleb z (snd (l_cargo g)) then Generation.get bkg_x0s (draw (i * Z.to_nat ny + j)%nat)
           else Ok air) ;;
    match block with
    | Some ((lx, ly, lz), (hx, hy, hz)) =>
        if Rltb lz z && Rleb z hz && in_slice nx (long lx) (long hx) (Z.of_nat i) && in_slice ny (long ly) (long hy) (Z.of_nat j) then Ok uranium else Ok x0
    | None => Ok x0
    end) (seq 0 (Z.to_nat ny))) (seq 0 (Z.to_nat nx)).
(* 59-79  _generate: the layout and the target; u: torch.rand *)
Definition lorry_generate (x0_lorry air uranium : R) (bkg_x0s : list R) (w : world) (g : lorry) (u_prob u : R) (i : nat) (o : order3) (r : vec3)
  : res (((nat -> nat) -> R -> res (list (list R))) * Z) :=
  if Rltb u u_prob then
    b <- lorry_block w g i o r ;; Ok (lorry_layer x0_lorry air uranium bkg_x0s g (Some b), 1%Z)
  else Ok (lorry_layer x0_lorry air uranium bkg_x0s g None, 0%Z).
