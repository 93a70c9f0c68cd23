(* Model of benchmarks/ladle_furnace: data.py, inference.py (EdgeDetLadleFurnaceFillLevelInferrer, PocaZLadleFurnaceFillLevelInferrer),
   loss.py, and of inference/volume.py:AbsIntClassifierFromX0.get_prediction.
   One volume at a time: the axis that add_batch_dim puts in front has length 1 and is left out. *)
From Coq Require Import ZArith.
From Verif Require Import Model.X0Infer.
From Verif Require Export Model.Passives Model.Loss.
Open Scope R_scope.
Open Scope list_scope.

(* ---------- data.py ---------- *)
(* 31  fill_z_range *)
Definition fill_range (w : world) : R * R := (fst (w_z w) + w_size w, snd (w_z w)).
(* 34-41  mat_z and slag_z; r1, r2: torch.rand *)
Definition ladle_levels (w : world) (fixed_mat fixed_slag : option R) (r1 r2 : R) : R * R :=
  let mat := match fixed_mat with
             | None => w_size w + fst (fill_range w) + (snd (fill_range w) - (fst (fill_range w) + w_size w)) * r1
             | Some m => m
             end in
  let slag := match fixed_slag with None => mat + (snd (w_z w) - mat) * r2 | Some s => s end in
  (mat, slag).
(* the X0s of the four materials *)
Record ladle_x0s := LadleX0 { lx_furnace : R; lx_fill : R; lx_slag : R; lx_air : R }.
(* 43-61  the layout function, of the top of a layer; x0[0, :] of a tensor without rows or columns raises *)
Definition ladle_layer (w : world) (m : ladle_x0s) (mat slag z : R) : res (list (list R)) :=
  let nx := long (fst (w_lw w) / w_size w) in let ny := long (snd (w_lw w) / w_size w) in
  base <- (if Rleb z (fst (fill_range w)) then Ok (lx_furnace m)
           else if Rltb (fst (fill_range w)) z && Rleb z mat then Ok (lx_fill m)
           else if Rltb mat z && Rleb z slag then Ok (lx_slag m)
           else if Rltb slag z then Ok (lx_air m)
           else Err RuntimeError (* not for real numbers: one of the tests is true *)) ;;
  if (nx <=? 0)%Z || (ny <=? 0)%Z then Err IndexError
  else Ok (grid nx ny (fun i j => if (i =? 0)%Z || (i =? nx - 1)%Z || (j =? 0)%Z || (j =? ny - 1)%Z then lx_furnace m else base)).
(* 63  the target is mat_z; with the layers from the bottom, tops at z0 + size, z0 + 2 size, ... *)
Definition ladle_cube (w : world) (m : ladle_x0s) (mat slag : R) (n : nat) : res (list (list (list R))) :=
  mapM (fun k => ladle_layer w m mat slag (fst (w_z w) + INR k * w_size w)) (seq 1 n).

(* ---------- conversions ---------- *)
(* loss.py 41-45  _targ2int *)
Definition targ2int (z0 size h : R) : Z := (Rfloor ((h - z0) / size) - 1)%Z.
(* inference.py 38-40  _class2float *)
Definition class2float (z0 size : R) (c : Z) : R := (IZR c + 1) * size + z0.

(* ---------- inference.py: the pipeline ---------- *)
(* 109-112  remove_ladle: x[:, 1:, 1:-1, 1:-1] *)
Definition inner {A} (l : list A) : list A := removelast (tl l).
Definition remove_ladle (x : list (list (list R))) : list (list (list R)) := map (fun layer => map inner (inner layer)) (tl x).
(* 42-44  avg_3d, of a cube whose layers have nx rows of ny voxels (avg_pool is on the flattened cube) *)
Definition dims3 (x : list (list (list R))) : nat * nat * nat := (length x, length (hd [] x), length (hd [] (hd [] x))).
Fixpoint chunk {A} (n k : nat) (l : list A) : list (list A) :=
  match k with O => [] | S k' => firstn n l :: chunk n k' (skipn n l) end.
Definition avg_3d (x : list (list (list R))) : list (list (list R)) :=
  let '(nz, nx, ny) := dims3 x in
  map (chunk ny nx) (chunk (nx * ny) nz (avg_pool nz nx ny (concat (map (fun l => concat l) x)))).
(* 53-55  avg_layers *)
Definition avg_layers (x : list (list (list R))) : list xr :=
  map (fun l => xdiv (Fin (Rsum (concat l))) (Fin (INR (length (concat l))))) x.
(* 101-103  avg_1d; 57-67  the pools of max_sub_min and max_div_min: windows of up to three entries *)
Definition window (x : list xr) (i : nat) : list xr := map (fun k => nth k x NaN) (around i (length x)).
Definition avg_1d (x : list xr) : list xr := map (fun i => xmean (window x i)) (seq 0 (length x)).
Definition xmax2 (a b : xr) : xr := if xisnan a || xisnan b then NaN else if xlt a b then b else a.
Definition pool_max (x : list xr) : list xr := map (fun i => fold_right xmax2 NInf (window x i)) (seq 0 (length x)).
Definition max_sub_min (x : list xr) : list xr := map (fun p => xsub (fst p) (xopp (snd p))) (combine (pool_max x) (pool_max (map xopp x))).
Definition max_div_min (x : list xr) : list xr := map (fun p => xdiv (fst p) (xopp (snd p))) (combine (pool_max x) (pool_max (map xopp x))).
(* 69-92  edge_det and its kernels; the ends are repeated outside *)
Definition edge_det (a b c : R) (x : list xr) : list xr :=
  map (fun i => xadd (xadd (xmul (Fin a) (nth (i - 1) x NaN)) (xmul (Fin b) (nth i x NaN))) (xmul (Fin c) (nth (Nat.min (i + 1) (length x - 1)) x NaN)))
      (seq 0 (length x)).
Definition ridge_1d_0 := edge_det (-1) 0 (-1).
(* 105-107  negative *)
Definition negative (x : list xr) : list xr := map xopp x.
(* F.softmax: with the largest entry subtracted *)
Definition softmax (x : list xr) : list xr :=
  let m := fold_right xmax2 NInf x in let e := map (fun a => xexp (xsub a m)) x in map (fun a => xdiv a (xtotal e)) e.
(* 26, 114-121  x02probs with the default pipeline *)
Definition scores (x : list (list (list R))) : list xr :=
  max_div_min (negative (ridge_1d_0 (avg_1d (avg_layers (avg_3d (remove_ladle x)))))).
Definition x02probs (x : list (list (list R))) : list xr := softmax (scores x).
(* inference/volume.py 920-940  get_prediction; argmax: torch.argmax *)
Definition int_prediction (argmax : list xr -> nat) (output_probs : bool) (c2f : option (Z -> R)) (probs : list xr) : list xr :=
  if output_probs then probs
  else let c := Z.of_nat (argmax probs) in match c2f with None => [Fin (IZR c)] | Some f => [Fin (f c)] end.

(* ---------- inference.py: PocaZLadleFurnaceFillLevelInferrer ---------- *)
(* torch.linspace: n points, both ends included *)
Definition points (a b : R) (n : nat) : list R := map (fun i => a + INR i * ((b - a) / INR (n - 1))) (seq 0 n).
(* 148-181  the pixels: the number along y is computed from lw[0], too *)
Definition n_pix (lw : R * R) (size : R) : nat := Z.to_nat (long (fst lw / size)).
Definition xy_centres (lw : R * R) (size : R) : list (R * R) :=
  list_prod (points (size / 2) (fst lw - size / 2) (n_pix lw size)) (points (size / 2) (snd lw - size / 2) (n_pix lw size)).
Definition xy_edges (lw : R * R) (size : R) : list (R * R) :=
  list_prod (points 0 (fst lw - size) (n_pix lw size)) (points 0 (snd lw - size) (n_pix lw size)).
(* 351-355  _sig_model, one coordinate; sign(delta) * delta is |delta| *)
Definition sig_model (smooth l x : R) : R :=
  let half := l / 2 in let delta := (x - half) / half in
  Rsigmoid ((1 - Rabs delta) / smooth) / Rsigmoid (1 / smooth).
(* 342-349  the weights of the pixels; smooth has to be positive *)
Definition pixel_weight (smooth : R) (lw c : R * R) : R :=
  ((sig_model smooth (fst lw) (fst c) - 1 / 2) * 2) * ((sig_model smooth (snd lw) (snd c) - 1 / 2) * 2).
Definition set_smooth (lw : R * R) (size smooth : R) : res (list R) :=
  if Rltb 0 smooth then Ok (map (pixel_weight smooth lw) (xy_centres lw size)) else Err ValueError.
(* what is left of a muon after _combine_scatters: PoCA, its uncertainty, efficiency *)
Record seen := Seen { sn_poca : R * R * R; sn_unc : R * R * R; sn_eff : R }.
(* 369-375  probability weights; Normal raises for scales that are not positive *)
Definition pixel_prob (cdf : R -> R -> R -> R) (size : R) (m : seen) (e : R * R) : R :=
  let '(px, py, _) := sn_poca m in let '(ux, uy, _) := sn_unc m in
  (cdf px ux (fst e + size) - cdf px ux (fst e)) * (cdf py uy (snd e + size) - cdf py uy (snd e)).
Definition sig_weight (cdf : R -> R -> R -> R) (lw : R * R) (size : R) (grid_wgt : list R) (m : seen) : res R :=
  let '(ux, uy, _) := sn_unc m in
  if Rltb 0 ux && Rltb 0 uy then Ok (Rsum (map (fun p => pixel_prob cdf size m (fst p) * snd p) (combine (xy_edges lw size) grid_wgt)))
  else Err ValueError.
(* kthvalue of numbers with infinities: ascending, NaN at the end *)
Definition xbefore (a b : xr) : bool := xisnan b || xle a b.
Fixpoint xinsert (x : xr) (l : list xr) : list xr := match l with [] => [x] | y :: l' => if xbefore x y then x :: l else y :: xinsert x l' end.
Definition xsort (l : list xr) : list xr := fold_right xinsert [] l.
Definition xkth (k : Z) (l : list xr) : res xr :=
  if (1 <=? k)%Z && (k <=? Z.of_nat (length l))%Z then Ok (nth (Z.to_nat (k - 1)) (xsort l) NaN) else Err RuntimeError.
(* torch.clip *)
Definition xmin2 (a b : xr) : xr := if xisnan a || xisnan b then NaN else if xlt b a then b else a.
Definition xclip (lo hi a : xr) : xr := xmin2 (xmax2 a lo) hi.
Definition quantile_index (q : R) (n : nat) : Z := (1 + round_even (q * IZR (Z.of_nat n - 1)))%Z.
(* 357-390  _get_height_pred; the efficiencies are those of the list (sn_eff is not read here) *)
Definition height_with (cdf : R -> R -> R -> R) (lw : R * R) (size : R) (grid_wgt : list R) (effs : list xr) (ms : list seen) : res xr :=
  sw <- mapM (sig_weight cdf lw size grid_wgt) ms ;;
  let z_unc := map (fun m => Fin (snd (sn_unc m))) ms in
  lo <- xkth (quantile_index 0.15865 (length ms)) z_unc ;;
  hi <- xkth (quantile_index 0.84135 (length ms)) z_unc ;;
  let z_unc := map (xclip lo hi) z_unc in
  let wgt := map2 (fun (p : R * xr) u => xdiv (xmul (Fin (fst p)) (snd p)) (xmul u u)) (combine sw effs) z_unc in
  top <- xkth (quantile_index 0.84135 (length ms)) wgt ;;
  let wgt := map (xclip (Fin 0) top) wgt in
  Ok (xdiv (xtotal (map2 (fun w m => xmul w (Fin (snd (sn_poca m)))) wgt ms)) (xtotal wgt)).
(* with numbers as efficiencies *)
Definition height_pred (cdf : R -> R -> R -> R) (lw : R * R) (size : R) (grid_wgt : list R) (ms : list seen) : res xr :=
  height_with cdf lw size grid_wgt (map (fun m => Fin (sn_eff m)) ms) ms.

(* ---------- loss.py: SpreadRangeLoss (48-74) ---------- *)
(* torch.mean and torch.std (unbiased) of a vector *)
Definition vmean (l : list R) : xr := xdiv (Fin (Rsum l)) (Fin (INR (length l))).
Definition vstd (l : list R) : xr :=
  let m := Rsum l / INR (length l) in
  xsqrt (xdiv (Fin (Rsum (map (fun x => (x - m) * (x - m)) l))) (xsub (Fin (INR (length l))) (Fin 1))).
(* 53-57  on_volume_batch_begin, on_x0_pred_end: predictions by target, in the order of the first appearance of the target *)
Fixpoint put_pred (t : R) (p : list R) (d : list (R * list (list R))) : list (R * list (list R)) :=
  match d with
  | [] => [(t, [p])]
  | (t', ps) :: d' => if Reqb t t' then (t', ps ++ [p]) :: d' else (t', ps) :: put_pred t p d'
  end.
Definition grouped (seen : list (R * list R)) : list (R * list (list R)) := fold_left (fun d tp => put_pred (fst tp) (snd tp) d) seen [].
(* xr versions, for the lists of the standard deviations and means *)
Definition xvstd (l : list xr) : xr :=
  let m := xmean l in xsqrt (xdiv (xtotal (map (fun x => xmul (xsub x m) (xsub x m)) l)) (xsub (Fin (INR (length l))) (Fin 1))).
(* 59-74  on_volume_batch_end: stack of an empty list raises *)
Definition spread_range (preds : list (R * list R)) : res xr :=
  let big := map (fun g => concat (snd g)) (filter (fun g => Nat.leb 2 (length (snd g))) (grouped preds)) in
  match big with
  | [] => Err RuntimeError
  | _ => Ok (xdiv (xmean (map vstd big)) (xvstd (map vmean big)))
  end.
