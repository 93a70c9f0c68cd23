(* Model of tomopt/optimisation/callbacks/pred_callbacks.py: PredHandler, VolumeTargetPredHandler and Save2HDF5PredHandler. *)
From Verif Require Export Model.Fit.
Open Scope list_scope.

Section Handler.
Context {W I P T : Type}.
(* what is recorded beside a prediction: volume.get_rad_cube(), or volume.target, maybe turned into class ids (which may raise) *)
Variable target : W -> res T.
(* pred_callbacks.py:17-45 and 60-69  the handler's preds attribute is missing before the first on_pred_begin.
   A prediction of None has no detach *)
Definition handler_cb (e : event) (x : fp P * (W * option (list (P * T)))) : res unit * (fp P * (W * option (list (P * T)))) :=
  let '(f, (w, ps)) := x in
  match e with
  | PredBegin => (Ok tt, (f, (w, Some [])))
  | X0PredEnd =>
      if is_test (f_state f) then
        match ps, f_pred f, target w with
        | None, _, _ => (Err AttributeError, x)
        | _, _, Err e => (Err e, x)
        | _, None, _ => (Err AttributeError, x)
        | Some ps, Some p, Ok t => (Ok tt, (f, (w, Some (ps ++ [(p, t)]))))
        end
      else (Ok tt, x)
  | _ => (Ok tt, x)
  end.
(* a world that also has the handler's preds *)
Definition lift {A} (g : W -> res A * W) (w : W * option (list (P * T))) : res A * (W * option (list (P * T))) :=
  let (r, v) := g (fst w) in (r, (v, snd w)).
(* the callback called h is the handler *)
Definition with_handler (E : env W I P) (h : nat) : env (W * option (list (P * T))) I P :=
  Fit.Env
    (fun k e x => if Nat.eqb k h then handler_cb e x
                  else let '(f, (w, ps)) := x in let '(r, (f, w)) := e_cb E k e (f, w) in (r, (f, (w, ps))))
    (e_len E) (fun d i => lift (e_next E d i)) (fun x => lift (e_load E x)) (lift (e_inferrer E)) (fun n => lift (e_generate E n))
    (lift (e_cross E)) (lift (e_scatter E)) (lift (e_add E)) (lift (e_predict E))
    (match e_loss E with Some g => Some (fun p => lift (g p)) | None => None end) (lift (e_zero_grad E)) (fun l => lift (e_backward E l))
    (lift (e_step E)) (lift (e_conform E)) (lift (e_train E)) (lift (e_eval E)) (lift (e_mkdir E))
    (fun w => (e_no_shuffle E (fst w), snd w)).
End Handler.

(* pred_callbacks.py:95-130  the file of Save2HDF5PredHandler: the rows of its two datasets.  Either dataset may be missing.
   A row that was added but not written is None (HDF5 fills it with zeros).
   fail: after how many steps the write stops, because of an exception or of the end of the process (None: it does not).
   The steps are: a row is added to preds, the row is written, a row is added to targs, the row is written.
   A dataset that is missing is created with its row in one step, the second or the fourth *)
Section File.
Context {A B : Type}.
Record h5 := H5 { h_preds : option (list (option A)); h_targs : option (list (option B)) }.
Definition put_row {X} (steps : nat) (o : option (list (option X))) (x : X) : option (list (option X)) :=
  match steps, o with
  | O, _ => o
  | S O, Some l => Some (l ++ [None])
  | S O, None => None
  | _, Some l => Some (l ++ [Some x])
  | _, None => Some [Some x]
  end.
Definition write_data (fail : option nat) (p : A) (t : B) (f : h5) : h5 :=
  let n := match fail with Some n => n | None => 4%nat end in
  H5 (put_row n (h_preds f) p) (put_row (n - 2) (h_targs f) t).
(* pred_callbacks.py:86-93  the constructor: an existing file is removed if it is to be overwritten; a missing file is an empty one *)
Definition open_handler (overwrite : bool) (f : option h5) : h5 :=
  match f with Some f => if overwrite then H5 None None else f | None => H5 None None end.
(* one prediction run: the pairs in order.  A write that fails ends the run *)
Fixpoint run_writes (l : list (A * B * option nat)) (f : h5) : h5 :=
  match l with
  | [] => f
  | (p, t, None) :: l => run_writes l (write_data None p t f)
  | (p, t, Some n) :: _ => write_data (Some n) p t f
  end.
(* several runs, each with its own handler for the same path *)
Fixpoint runs (rs : list (bool * list (A * B * option nat))) (f : option h5) : option h5 :=
  match rs with [] => f | (overwrite, l) :: rs => runs rs (Some (run_writes l (open_handler overwrite f))) end.
End File.
Arguments h5 : clear implicits.
