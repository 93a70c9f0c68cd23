(* A callback that has attributes of its own (x) and only reads fit_params and the rest, in the fit of Model/Fit.v
   (tomopt/optimisation/callbacks/callback.py:15-231). *)
From Verif Require Export Model.Fit.
Open Scope list_scope.

Section Observer.
Context {W I P X : Type}.
Variable cb : event -> fp P -> W -> X -> res unit * X.
(* a world that also has its attributes *)
Definition lift_o {A} (g : W -> res A * W) (w : W * X) : res A * (W * X) := let (r, v) := g (fst w) in (r, (v, snd w)).
(* the callback called h is the observer *)
Definition with_obs (E : env W I P) (h : nat) : env (W * X) I P :=
  Fit.Env
    (fun k e x => let '(f, (w, a)) := x in
                  if Nat.eqb k h then let (r, a) := cb e f w a in (r, (f, (w, a)))
                  else let '(r, (f, w)) := e_cb E k e (f, w) in (r, (f, (w, a))))
    (e_len E) (fun d i => lift_o (e_next E d i)) (fun x => lift_o (e_load E x)) (lift_o (e_inferrer E)) (fun n => lift_o (e_generate E n))
    (lift_o (e_cross E)) (lift_o (e_scatter E)) (lift_o (e_add E)) (lift_o (e_predict E))
    (match e_loss E with Some g => Some (fun p => lift_o (g p)) | None => None end) (lift_o (e_zero_grad E)) (fun l => lift_o (e_backward E l))
    (lift_o (e_step E)) (lift_o (e_conform E)) (lift_o (e_train E)) (lift_o (e_eval E)) (lift_o (e_mkdir E))
    (fun w => (e_no_shuffle E (fst w), snd w)).
End Observer.
