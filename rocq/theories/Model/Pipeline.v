(* Model of benchmarks/ladle_furnace/inference.py: EdgeDetLadleFurnaceFillLevelInferrer with any pipeline.
   Tensors by rank; the first axis of T4 and T2 has length 1.  Names of other methods in the pipeline are not modelled.
   torch's errors about ranks and sizes are RuntimeError (some of them are its subclass NotImplementedError). *)
From Verif Require Export Model.Ladle.
Open Scope R_scope.
Open Scope list_scope.

Definition cube := list (list (list R)).
Inductive tens :=
| T4 (c : cube)          (* (1, layers, rows, voxels) *)
| T3 (c : cube)          (* (layers, rows, voxels) *)
| T2 (p : list xr)       (* (1, layers) *)
| T1 (p : list xr)       (* (layers) *)
| T0 (v : xr).           (* no axes *)
(* 69-92  the kernels of edge_det *)
Inductive kernel := Ridge0 | Ridge2 | Ridge4 | Ridge8 | Prewit | Laplacian.
Definition weights (k : kernel) : R * R * R :=
  match k with
  | Ridge0 => (-1, 0, -1) | Ridge2 => (-1, 2, -1) | Ridge4 => (-1, 4, -1) | Ridge8 => (-1, 8, -1)
  | Prewit => (-1, 0, 1) | Laplacian => (1, -4, 1)
  end.
Inductive step := RemoveLadle | Avg3d | Gauss3d | AvgLayers | Avg1d | Gauss1d | EdgeDet (k : kernel) | MaxSubMin | MaxDivMin | Negative.

(* indices of the neighbours of i out of n, the ends repeated, with their weights *)
Definition near (n i : nat) : list (nat * R) := [((i - 1)%nat, 1); (i, 2); (Nat.min (i + 1) (n - 1), 1)].
(* 46-51  gauss_3d; the weights are products of 1, 2, 1 and have the sum 64 *)
Definition gauss_3d (x : cube) : cube :=
  let '(nz, nx, ny) := dims3 x in
  map (fun k => map (fun i => map (fun j =>
    Rsum (flat_map (fun a => flat_map (fun b => map (fun c => snd a * snd b * snd c * nth (fst c) (nth (fst b) (nth (fst a) x []) []) 0) (near ny j)) (near nx i)) (near nz k)) / 64)
    (seq 0 ny)) (seq 0 nx)) (seq 0 nz).
(* 94-99  gauss_1d *)
Definition gauss_1d (x : list xr) : list xr := map (fun v => xdiv v (Fin 8)) (edge_det 2 4 2 x).

(* the number of layers, rows and voxels: none of them 0; none of them 1 *)
Definition all_dims (P : nat -> bool) (c : cube) : bool := let '(nz, nx, ny) := dims3 c in P nz && P nx && P ny.
(* x[:, None] in front of a convolution along one axis, for a kernel of 1 channel *)
Definition conv_1d (f : list xr -> tens) (t : tens) : res tens :=
  match t with
  | T4 _ | T3 _ => Err RuntimeError
  | T2 [] => Err RuntimeError
  | T2 p => Ok (f p)
  | T1 [_] => Err RankChanged     (* one layer is taken for the channel; not followed further *)
  | T1 _ => Err RuntimeError      (* the layers are taken for channels *)
  | T0 _ => Err IndexError
  end.
(* F.avg_pool1d, F.max_pool1d *)
Definition pool_1d (f : list xr -> list xr) (t : tens) : res tens :=
  match t with
  | T2 [] => Err RuntimeError
  | T2 p => Ok (T2 (f p))
  | T3 _ => Err RankChanged       (* pools along the voxels of a row; not followed further *)
  | T4 _ | T1 _ | T0 _ => Err RuntimeError
  end.
(* .squeeze() *)
Definition squeeze_1d (p : list xr) : tens := match p with [v] => T0 v | _ => T1 p end.
(* 42-112  one step *)
Definition run_step (s : step) (t : tens) : res tens :=
  match s with
  | RemoveLadle => match t with T4 c => Ok (T4 (remove_ladle c)) | _ => Err IndexError end
  | Avg3d => match t with T4 c => if all_dims (Nat.ltb 0) c then Ok (T4 (avg_3d c)) else Err RuntimeError | _ => Err RuntimeError end
  | Gauss3d =>
      match t with
      | T4 c => if all_dims (Nat.ltb 0) c then
                  if all_dims (Nat.ltb 1) c then Ok (T3 (gauss_3d c)) else Err RankChanged
                else Err RuntimeError
      | T3 c => if Nat.eqb (length c) 1 then Err RankChanged else Err RuntimeError
      | T2 _ | T1 _ => Err RuntimeError
      | T0 _ => Err IndexError
      end
  | AvgLayers => match t with T4 c => Ok (T2 (avg_layers c)) | T3 c => Ok (T1 (avg_layers c)) | T2 p => Ok (T0 (xmean p)) | _ => Err IndexError end
  | Avg1d => pool_1d avg_1d t
  | MaxSubMin => pool_1d max_sub_min t
  | MaxDivMin => pool_1d max_div_min t
  | EdgeDet k => let '(a, b, c) := weights k in conv_1d (fun p => T2 (edge_det a b c p)) t
  | Gauss1d => conv_1d (fun p => squeeze_1d (gauss_1d p)) t
  | Negative =>
      Ok match t with
         | T4 c => T4 (map (map (map Ropp)) c) | T3 c => T3 (map (map (map Ropp)) c)
         | T2 p => T2 (negative p) | T1 p => T1 (negative p) | T0 v => T0 (xopp v)
         end
  end.
Definition run_steps (pipeline : list step) (t : tens) : res tens := foldM (fun t s => run_step s t) pipeline t.
(* 114-121  x02probs; vox_preds has the rank 3 *)
Definition x02probs_of (pipeline : list step) (add_batch_dim : bool) (x : cube) : res (list xr) :=
  t <- run_steps pipeline (if add_batch_dim then T4 x else T3 x) ;;
  if add_batch_dim then
    match t with
    | T2 p => Ok (softmax p)
    | T1 [] => Err IndexError
    | T1 (v :: _) => Ok (softmax [v])     (* the first layer instead of the only volume *)
    | T0 _ => Err IndexError
    | T4 _ | T3 _ => Err RankChanged      (* rows of voxels instead of classes *)
    end
  else
    match t with
    | T1 p => Ok (softmax p)
    | T0 v => Ok (softmax [v])
    | _ => Err RankChanged
    end.
(* 26  the default *)
Definition default_pipeline : list step := [RemoveLadle; Avg3d; AvgLayers; Avg1d; EdgeDet Ridge0; Negative; MaxDivMin].
