(* Model of tomopt/optimisation/callbacks/opt_callbacks.py:143-151: EpochSave, in the fit of Model/Fit.v. *)
From Verif Require Export Model.Fit.
Open Scope list_scope.

Section Saver.
Context {W I P D : Type}.
Variable snap : W -> D.              (* what wrapper.save writes: the state of the volume and of the optimisers (volume_wrapper.py:268-276) *)
Variable can : nat -> W -> res unit. (* whether volume_state_{n}.pt can be written *)
(* The files that were written, in order; (n, d): d was written to volume_state_{n}.pt.
   opt_callbacks.py:149-151 *)
Definition saver_cb (e : event) (x : fp P * (W * list (nat * D))) : res unit * (fp P * (W * list (nat * D))) :=
  let '(f, (w, fs)) := x in
  match e with
  | EpochEnd =>
      if is_train (f_state f) then
        match can (f_epoch f) w with
        | Err e => (Err e, x)
        | Ok _ => (Ok tt, (f, (w, fs ++ [(f_epoch f, snap w)])))
        end
      else (Ok tt, x)
  | _ => (Ok tt, x)
  end.
(* a world that also has the files *)
Definition lift_f {A} (g : W -> res A * W) (w : W * list (nat * D)) : res A * (W * list (nat * D)) :=
  let (r, v) := g (fst w) in (r, (v, snd w)).
(* the callback called h is the EpochSave *)
Definition with_saver (E : env W I P) (h : nat) : env (W * list (nat * D)) I P :=
  Fit.Env
    (fun k e x => if Nat.eqb k h then saver_cb e x
                  else let '(f, (w, fs)) := x in let '(r, (f, w)) := e_cb E k e (f, w) in (r, (f, (w, fs))))
    (e_len E) (fun d i => lift_f (e_next E d i)) (fun x => lift_f (e_load E x)) (lift_f (e_inferrer E)) (fun n => lift_f (e_generate E n))
    (lift_f (e_cross E)) (lift_f (e_scatter E)) (lift_f (e_add E)) (lift_f (e_predict E))
    (match e_loss E with Some g => Some (fun p => lift_f (g p)) | None => None end) (lift_f (e_zero_grad E)) (fun l => lift_f (e_backward E l))
    (lift_f (e_step E)) (lift_f (e_conform E)) (lift_f (e_train E)) (lift_f (e_eval E)) (lift_f (e_mkdir E))
    (fun w => (e_no_shuffle E (fst w), snd w)).
(* what is in volume_state_{n}.pt: what was written last *)
Definition on_disk (n : nat) (fs : list (nat * D)) : option D :=
  match find (fun x => Nat.eqb (fst x) n) (rev fs) with Some x => Some (snd x) | None => None end.
End Saver.
