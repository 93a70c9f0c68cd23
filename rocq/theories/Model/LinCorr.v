(* Model of tomopt/benchmarks/ladle_furnace/inference.py:393-427: LinearCorrectionCallback.
   Predictions and targets are tensors of one element, as PocaZLadleFurnaceFillLevelInferrer and LadleFurnacePassiveGenerator make them.
   A target may be None.  The optimiser is an arbitrary function of the gradients. *)
From Coq Require Import NArith.
From Verif Require Export Model.Fit.
Open Scope R_scope.
Open Scope list_scope.

(* 398-402  self.linear (weight, bias) and the optimiser's own state *)
Record lin (S : Type) := Lin { l_w : R; l_b : R; l_opt : S }.
Arguments Lin {S}. Arguments l_w {S}. Arguments l_b {S}. Arguments l_opt {S}.
Section Lin.
Context {S : Type}.
(* nn.Linear(1, 1) *)
Definition linear (l : lin S) (x : R) : R := l_w l * x + l_b l.
(* F.mse_loss(linear(x), y) over the pairs (x, y) and its gradients with respect to weight and bias.  There is at least one pair *)
Definition mse (l : lin S) (d : list (R * R)) : R := Rsum (map (fun q => (linear l (fst q) - snd q)²) d) / INR (length d).
Definition mse_grad (l : lin S) (d : list (R * R)) : R * R :=
  (Rsum (map (fun q => 2 * (linear l (fst q) - snd q) * fst q) d) / INR (length d),
   Rsum (map (fun q => 2 * (linear l (fst q) - snd q)) d) / INR (length d)).
(* opt.step(): gradients, optimiser state, weight and bias *)
Variable opt : R * R -> S -> R * R -> (R * R) * S.
(* 422-427  one turn of the loop; zero_grad before backward: the gradients are those of this loss only *)
Definition corr_step (d : list (R * R)) (l : lin S) : lin S :=
  let '((w, b), s) := opt (mse_grad l d) (l_opt l) (l_w l, l_b l) in Lin w b s.
Definition corr_train (d : list (R * R)) (l : lin S) : lin S := N.iter 10000 (corr_step d) l.

Context {W I : Type}.
Variable target : W -> option R.     (* volume.target *)
(* the callback's attributes: the linear layer with its optimiser; _preds and _targs, which are missing before the first training batch *)
Record corr := Corr { c_lin : lin S; c_data : option (list (R * R)) }.
(* 404-427  on_train_begin moves the layer to the device.  If the target is None the code raises after the prediction was appended;
   that ends the fit, and the next training batch starts with empty lists *)
Definition corr_cb (e : event) (x : fp R * (W * corr)) : res unit * (fp R * (W * corr)) :=
  let '(f, (w, c)) := x in
  match e with
  | VolumeBatchBegin => if is_train (f_state f) then (Ok tt, (f, (w, Corr (c_lin c) (Some [])))) else (Ok tt, x)
  | X0PredEnd =>
      match f_pred f with
      | None => (Err (if is_train (f_state f) then AttributeError else TypeErr), x)      (* None.detach(); linear(None) *)
      | Some p =>
          let f' := set_pred (Some (linear (c_lin c) p)) f in
          if is_train (f_state f) then
            match c_data c, target w with
            | Some d, Some t => (Ok tt, (f', (w, Corr (c_lin c) (Some (d ++ [(p, t)])))))
            | _, _ => (Err AttributeError, x)
            end
          else (Ok tt, (f', (w, c)))
      end
  | BackwardsEnd =>
      match c_data c with
      | None => (Err AttributeError, x)
      | Some [] => (Err RuntimeError, x)      (* torch.stack of an empty list *)
      | Some d => (Ok tt, (f, (w, Corr (corr_train d (c_lin c)) (c_data c))))
      end
  | _ => (Ok tt, x)
  end.
(* a world that also has the callback *)
Definition lift_c {A} (g : W -> res A * W) (w : W * corr) : res A * (W * corr) := let (r, v) := g (fst w) in (r, (v, snd w)).
(* the callback called h is this one *)
Definition with_corr (E : env W I R) (h : nat) : env (W * corr) I R :=
  Fit.Env
    (fun k e x => if Nat.eqb k h then corr_cb e x
                  else let '(f, (w, c)) := x in let '(r, (f, w)) := e_cb E k e (f, w) in (r, (f, (w, c))))
    (e_len E) (fun d i => lift_c (e_next E d i)) (fun x => lift_c (e_load E x)) (lift_c (e_inferrer E)) (fun n => lift_c (e_generate E n))
    (lift_c (e_cross E)) (lift_c (e_scatter E)) (lift_c (e_add E)) (lift_c (e_predict E))
    (match e_loss E with Some g => Some (fun p => lift_c (g p)) | None => None end) (lift_c (e_zero_grad E)) (fun l => lift_c (e_backward E l))
    (lift_c (e_step E)) (lift_c (e_conform E)) (lift_c (e_train E)) (lift_c (e_eval E)) (lift_c (e_mkdir E))
    (fun w => (e_no_shuffle E (fst w), snd w)).
End Lin.
Arguments corr : clear implicits. Arguments Corr {S}. Arguments c_lin {S}. Arguments c_data {S}.
(* torch.optim.SGD without momentum and weight decay *)
Definition sgd (lr : R) (g : R * R) (s : unit) (p : R * R) : (R * R) * unit := ((fst p - lr * fst g, snd p - lr * snd g), s).
