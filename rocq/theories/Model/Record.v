(* Model of tomopt/optimisation/callbacks/diagnostic_callbacks.py: ScatterRecord and HitRecord, in the fit of Model/Fit.v.
   The layers of scatters are in Model/DataCb.v. *)
From Verif Require Export Model.Fit Model.Scatter.
Open Scope list_scope.

Section Record.
Context {W I P D : Type}.
(* what is taken from fit_params.sb *)
Variable look : W -> res D.
(* record: the tensors that were appended.  diagnostic_callbacks.py:29-53, 91-96, 111-117 *)
Definition record_cb (e : event) (x : fp P * (W * list D)) : res unit * (fp P * (W * list D)) :=
  let '(f, (w, rs)) := x in
  match e with
  | TrainBegin | PredBegin => (Ok tt, (f, (w, [])))
  | ScatterEnd => match look w with Ok d => (Ok tt, (f, (w, rs ++ [d]))) | Err e => (Err e, x) end
  | _ => (Ok tt, x)
  end.
(* a world that also has the record *)
Definition lift_r {A} (g : W -> res A * W) (w : W * list D) : res A * (W * list D) := let (r, v) := g (fst w) in (r, (v, snd w)).
(* the callback called h is the recorder *)
Definition with_record (E : env W I P) (h : nat) : env (W * list D) I P :=
  Fit.Env
    (fun k e x => if Nat.eqb k h then record_cb e x
                  else let '(f, (w, rs)) := x in let '(r, (f, w)) := e_cb E k e (f, w) in (r, (f, (w, rs))))
    (e_len E) (fun d i => lift_r (e_next E d i)) (fun x => lift_r (e_load E x)) (lift_r (e_inferrer E)) (fun n => lift_r (e_generate E n))
    (lift_r (e_cross E)) (lift_r (e_scatter E)) (lift_r (e_add E)) (lift_r (e_predict E))
    (match e_loss E with Some g => Some (fun p => lift_r (g p)) | None => None end) (lift_r (e_zero_grad E)) (fun l => lift_r (e_backward E l))
    (lift_r (e_step E)) (lift_r (e_conform E)) (lift_r (e_train E)) (lift_r (e_eval E)) (lift_r (e_mkdir E))
    (fun w => (e_no_shuffle E (fst w), snd w)).
End Record.

(* 53  poca_xyz[get_scatter_mask()] *)
Definition record_pocas (lw zr : R * R) (sb : scatters) : list v3 := filter (in_passive1 lw zr) (map2 poca1 (sb_tracks sb) (sb_coefs sb)).
(* 116  _reco_hits: one row of hits per muon *)
Definition record_hits (sb : scatters) : list (list v3) := map mh_reco (sb_hits sb).
(* 75-89  get_record: torch.cat of nothing raises.  Not modelled: batches with different numbers of panels (torch.cat raises) *)
Definition get_record {A} (rs : list (list A)) : res (list A) := match rs with [] => Err RuntimeError | _ => Ok (concat rs) end.

(* s.astype("category").cat.codes: the position of a number among the distinct numbers, in order *)
Fixpoint add_category (x : R) (l : list R) : list R :=
  match l with
  | [] => [x]
  | y :: l' => if Rltb x y then x :: l else if Reqb x y then l else y :: add_category x l'
  end.
Definition categories (l : list R) : list R := fold_right add_category [] l.
Fixpoint index_of (x : R) (l : list R) : option nat :=
  match l with
  | [] => None
  | y :: l => if Reqb x y then Some 0%nat else match index_of x l with Some i => Some (S i) | None => None end
  end.
(* 119-132  HitRecord._to_df: the column "layer".  None: no category (-1); the z of hits is finite *)
Definition hit_layers (h : R) (rows : list (list v3)) : list (option nat) :=
  let ds := map (fun p => match vz p with Fin z => Some (h - z) | _ => None end) (concat rows) in
  let cats := categories (flat_map (fun d => match d with Some x => [x] | None => [] end) ds) in
  map (fun d => match d with Some x => index_of x cats | None => None end) ds.
