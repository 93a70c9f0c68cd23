(* Classifiers that keep an X0 inferrer: inference/volume.py:DenseBlockClassifierFromX0s and AbsIntClassifierFromX0, with their use
   over several batches and with voxel predictions that are not numbers.
   X0Infer.v has the score of DenseBlockClassifierFromX0s on numbers. *)
From Coq Require Import ZArith.
From Verif Require Import Model.X0Infer.
From Verif Require Import Base.XR.
Open Scope R_scope.
Open Scope list_scope.

(* ---------- DenseBlockClassifierFromX0s.get_prediction, volume.py:819-844 ---------- *)
(* 828-829  F.avg_pool3d(kernel_size=3, stride=1, padding=1, count_include_pad=False) *)
Definition xavg_pool (nz nx ny : nat) (l : list xr) : list xr :=
  flat_map (fun k => flat_map (fun i => map (fun j =>
    let cells := flat_map (fun k' => flat_map (fun i' => map (fun j' => nth ((k' * nx + i') * ny + j') l NaN) (around j ny)) (around i nx)) (around k nz) in
    xdiv (xsum cells) (Fin (INR (List.length cells)))) (seq 0 ny)) (seq 0 nx)) (seq 0 nz).
(* 832  kthvalue: NaN counts as larger than everything *)
Definition xup (a b : xr) : bool := xle a b || xisnan b.
Fixpoint xinsert (x : xr) (l : list xr) : list xr :=
  match l with [] => [x] | y :: l' => if xup x y then x :: l else y :: xinsert x l' end.
Definition xsort (l : list xr) : list xr := fold_right xinsert [] l.
Definition xkth (k : Z) (l : list xr) : res xr :=
  if (1 <=? k)%Z && (k <=? Z.of_nat (List.length l))%Z then Ok (nth (Z.to_nat (k - 1)) (xsort l) NaN) else Err RuntimeError.
(* 831-844 *)
Definition xmean_of (w l : list xr) : xr := xdiv (xsum (map2 xmul w l)) (xsum w).
Definition xblock_score (cut_coef offset coef frac : R) (l : list xr) : res xr :=
  cut <- xkth (1 + round_half_even (frac * (INR (List.length l) - 1))) l ;;
  let w_bkg := map (fun x => xsigmoid (xmul (Fin cut_coef) (xsub x cut))) l in
  let w_blk := map (fun w => xsub (Fin 1) w) w_bkg in
  let m_bkg := xmean_of w_bkg l in
  let m_blk := xmean_of w_blk l in
  let r := xdiv (xmul (Fin 2) (xsub m_bkg m_blk)) (xadd m_bkg m_blk) in
  Ok (xsigmoid (xmul (xadd r (Fin offset)) (Fin coef))).
(* 827-829  None[None] raises TypeError, None.flatten() AttributeError *)
Definition dense_answer (avgpool : bool) (nz nx ny : nat) (cut_coef offset coef frac : R) (preds : option (list xr)) : res xr :=
  match preds with
  | None => if avgpool then Err TypeErr else Err AttributeError
  | Some l => xblock_score cut_coef offset coef frac (if avgpool then xavg_pool nz nx ny l else l)
  end.

(* ---------- AbsIntClassifierFromX0.get_prediction, volume.py:920-940 ---------- *)
(* 936  torch.argmax over the last dimension, of one row: the first of the largest, NaN counts as largest; no entries: IndexError *)
Fixpoint xbest (l : list xr) : option (nat * xr) :=
  match l with
  | [] => None
  | a :: l => match xbest l with
              | None => Some (O, a)
              | Some (i, b) => if xup b a then Some (O, a) else Some (S i, b)
              end
  end.
Definition xargmax (l : list xr) : res nat := match xbest l with Some (i, _) => Ok i | None => Err IndexError end.
(* 930-940; x02probs: of the inheriting class, anything, also called on None *)
Definition int_answer (x02probs : option (list xr) -> res (list xr)) (output_probs : bool) (c2f : option (nat -> xr)) (preds : option (list xr)) : res (list xr) :=
  probs <- x02probs preds ;;
  if output_probs then Ok probs
  else c <- xargmax probs ;; Ok [match c2f with None => Fin (INR c) | Some f => f c end].

(* ---------- both: 797-804, 898-905 add_scatters passes the batch on; 827, 930 get_prediction asks the kept inferrer ---------- *)
Section Kept.
Variables (g : grid) (cdf : R -> R -> R -> R) (eff_of : sview -> res (list xr)).
Context {B : Type} (answer : option (list xr) -> res B).
Inductive cop := CAdd (v : res sview) | CPredict.
Definition classify : act B := p <~ get_prediction g cdf eff_of ;; lift (answer p).
Fixpoint use_classifier (ops : list cop) (s : inf) : list (res B) :=
  match ops with
  | [] => []
  | CAdd v :: ops => use_classifier ops (add_scatters v s)
  | CPredict :: ops => let (a, s') := classify s in a :: use_classifier ops s'
  end.
End Kept.
