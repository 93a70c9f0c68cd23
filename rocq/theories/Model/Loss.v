(* Model of optimisation/loss/loss.py and optimisation/loss/sub_losses.py. *)
From Coq Require Import ZArith.
From Verif Require Export Model.Utils.
Open Scope R_scope.
Open Scope list_scope.

(* F.relu *)
Definition xrelu (a : xr) : xr := match a with Fin x => Fin (Rmax x 0) | PInf => PInf | NInf => Fin 0 | NaN => NaN end.
(* 98-121  AbsDetectorLoss._get_budget_coef: target_budget, budget_smoothing, steep_budget *)
Definition budget_coef (target : option R) (smoothing : R) (steep : bool) (cost : xr) : xr :=
  match target with
  | None => Fin 0
  | Some t =>
      if steep then
        let d := xdiv (xmul (Fin smoothing) (xsub cost (Fin t))) (Fin t) in
        if xle d (Fin 0) then xmul (Fin 2) (xsigmoid d) else xadd (Fin 1) (xdiv d (Fin 2))
      else
        let d := xsub cost (Fin t) in
        xadd (xmul (Fin 2) (xsigmoid (xdiv (xmul (Fin smoothing) d) (Fin t)))) (xdiv (xrelu d) (Fin t))
  end.
(* the loss object: cost_coef, and sub_losses["error"] and ["cost"] *)
Record loss := LossObj { l_coef : option xr; l_error : option xr; l_cost : option xr }.
(* 81-96, 123-153  forward with _get_cost_loss and _compute_cost_coef; infer and cost: what _get_inference_loss and volume.get_cost give *)
Definition forward (target : option R) (smoothing : R) (steep : bool) (infer cost : res xr) (o : loss) : res xr * loss :=
  match infer with
  | Err e => (Err e, LossObj (l_coef o) None None)
  | Ok err =>
      let coef := match l_coef o with Some k => k | None => err end in
      match cost with
      | Err e => (Err e, LossObj (Some coef) (Some err) None)
      | Ok c =>
          let cl := xmul (budget_coef target smoothing steep c) coef in
          (Ok (xadd err cl), LossObj (Some coef) (Some err) (Some cl))
      end
  end.

Definition xmean (l : list xr) : xr := xdiv (xtotal l) (Fin (INR (length l))).
(* 274-290, 326-341  the class targets: relabelling in place, value by value; then .long() *)
Definition relabel (x02id : list (R * Z)) (vals : list R) : res (list R) :=
  foldM (fun v x0 => c <- class_of x02id x0 ;; Ok (put_where Reqb x0 (IZR c) v v)) (unique Rltb vals) vals.
(* Tensor.long: towards zero *)
Definition to_long (x : R) : Z := if Rltb x 0 then (- Rfloor (- x))%Z else Rfloor x.
(* F.nll_loss(pred, targ, reduction="mean"): one column of log-probabilities per element *)
Definition pick (col : list R) (c : Z) : res R :=
  if (c <? 0)%Z then Err IndexError else match nth_error col (Z.to_nat c) with Some x => Ok x | None => Err IndexError end.
Definition nll_loss (cols : list (list R)) (targ : list Z) : res xr :=
  if Nat.eqb (length cols) (length targ) then
    xs <- mapM (fun p => pick (fst p) (snd p)) (combine cols targ) ;; Ok (xmean (map (fun x => Fin (- x)) xs))
  else Err ValueError.
(* 274-290  VoxelClassLoss._get_inference_loss; cube: volume.get_rad_cube().flatten() *)
Definition voxel_class_loss (x02id : list (R * Z)) (cols : list (list R)) (cube : list R) : res xr :=
  v <- relabel x02id cube ;; nll_loss cols (map to_long v).

(* F.binary_cross_entropy(pred, targ, reduction="mean"): the logarithms are cut at -100; probabilities outside of [0, 1] raise *)
Definition cut_log (x : R) : R := if Rltb 0 x then Rmax (ln x) (-100) else -100.
Definition bce1 (p t : R) : res R :=
  if Rltb p 0 || Rltb 1 p then Err RuntimeError else Ok (- (t * cut_log p + (1 - t) * cut_log (1 - p))).
Definition binary_cross_entropy (ps ts : list R) : res xr :=
  if Nat.eqb (length ps) (length ts) then
    xs <- mapM (fun p => bce1 (fst p) (snd p)) (combine ps ts) ;; Ok (xmean (map Fin xs))
  else Err ValueError.
(* 326-341  VolumeClassLoss._get_inference_loss; pred: rows of n columns, one for each entry of the target *)
Definition volume_class_loss (x02id : list (R * Z)) (n : nat) (pred : list (list R)) (target : list R) : res xr :=
  v <- relabel x02id target ;;
  if Nat.ltb 1 n then nll_loss pred (map to_long v) else binary_cross_entropy (concat pred) v.
(* 182-195, 425-438  VoxelX0Loss and VolumeMSELoss: F.mse_loss(pred, true, reduction="mean") of tensors of the same shape *)
Definition mse_loss (pred true : list R) : xr := xmean (map (fun p => Fin ((fst p - snd p) * (fst p - snd p))) (combine pred true)).

(* sub_losses.py 13-65  integer_class_loss; n: int_probs.size(-1), with one axis before it *)
Inductive reduction := RedMean | RedSum | RedNone | RedOther.
Inductive reduced := Scalar (x : xr) | Rows (l : list (list xr)).
Definition integer_class_loss (n : nat) (int_probs : list (list xr)) (target_int : list Z) (start : Z) (use_mse : bool)
    (weight : option (list xr)) (red : reduction) : res reduced :=
  let ints := map (fun i => start + Z.of_nat i)%Z (seq 0 n) in
  diffs <- bcast RuntimeError Z.sub target_int ints ;;
  let diffs := map (fun d => if use_mse then d * d else Z.abs d)%Z diffs in
  let total := xtotal (map (fun d => Fin (IZR d)) diffs) in
  let diffs := map (fun d => xdiv (Fin (IZR d)) total) diffs in
  rows <- mapM (fun p => bcast RuntimeError xmul diffs p) int_probs ;;
  let loss := map (fun r => [xtotal r]) rows in
  loss <- match weight with None => Ok loss | Some w => mapM (fun r => bcast RuntimeError xmul r w) loss end ;;
  match red with
  | RedMean => Ok (Scalar (xmean (concat loss)))
  | RedSum => Ok (Scalar (xtotal (concat loss)))
  | RedNone => Ok (Rows loss)
  | RedOther => Err ValueError
  end.
