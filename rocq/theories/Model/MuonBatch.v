(* Model of tomopt/muon/muon_batch.py: MuonBatch.
   A batch tensor of shape (N,6) is a list of records; a column is the list of one field.
   All arithmetic is on xr (exact reals with +-inf and NaN); device placement, dtype and autograd
   are not modelled.  An operation that raises yields Err (the partly updated batch is not kept). *)
From Verif Require Export Base.XR.
Open Scope R_scope.
Open Scope string_scope.
Open Scope list_scope.

(* muon_batch.py:58-63  columns x,y,z,p,theta,phi of _muons *)
Record muon := Mu { mx : xr; my : xr; mz : xr; mp : xr; mth : xr; mph : xr }.

Definition with_x (u : muon) v := Mu v (my u) (mz u) (mp u) (mth u) (mph u).
Definition with_y (u : muon) v := Mu (mx u) v (mz u) (mp u) (mth u) (mph u).
Definition with_z (u : muon) v := Mu (mx u) (my u) v (mp u) (mth u) (mph u).
Definition with_th (u : muon) v := Mu (mx u) (my u) (mz u) (mp u) v (mph u).
Definition with_ph (u : muon) v := Mu (mx u) (my u) (mz u) (mp u) (mth u) v.

(* One column: how to read it and how to write it (views self._x, self._y, ...; muon_batch.py:455-633) *)
Record column := Col { cget : muon -> xr; cset : muon -> xr -> muon }.
Definition cx := Col mx with_x.
Definition cy := Col my with_y.
Definition cz := Col mz with_z.
Definition cth := Col mth with_th.
Definition cph := Col mph with_ph.

Definition col (c : column) (ms : list muon) : list xr := map (cget c) ms.
(* self._col[mask] *)
Definition col_index (c : column) (mask : list bool) (ms : list muon) : res (list xr) :=
  bool_index mask (col c ms).
(* self._col[mask] = v : in-place write through the view *)
Definition col_assign (c : column) (mask : list bool) (ms : list muon) (v : list xr) : res (list muon) :=
  w <- bool_assign mask (col c ms) v ;; Ok (map2 (cset c) ms w).

(* A float / 0-d tensor or a vector argument *)
Inductive arg := Sc (v : xr) | Vec (vs : list xr).

(* torch broadcasting of an elementwise binary operation between a vector and an argument *)
Definition bcast (f : xr -> xr -> xr) (l : list xr) (a : arg) : res (list xr) :=
  match a with
  | Sc v => Ok (map (fun x => f x v) l)
  | Vec vs =>
      if Nat.eqb (List.length vs) (List.length l) then Ok (map2 f l vs)
      else match vs, l with
           | [v], _ => Ok (map (fun x => f x v) l)
           | _, [x] => Ok (map (fun v => f x v) vs)
           | _, _ => Err RuntimeError
           end
  end.

(* The same where the outcome is afterwards written back to the column it was computed from: a vector
   that is longer than a one-muon column is broadcast by torch, but the write then raises RuntimeError.
   Nothing is changed in between, so the model raises at once. *)
Definition bcast_in (f : xr -> xr -> xr) (l : list xr) (a : arg) : res (list xr) :=
  v <- bcast f l a ;;
  if Nat.eqb (List.length v) (List.length l) then Ok v else Err RuntimeError.

Section Hits.
(* H: one row of a hit tensor (an xy pair, a scalar, ...), left arbitrary *)
Variable H : Type.

(* muon_batch.py:82  _hits: dict pos -> dict var -> list (one entry per append) of tensors (one row per muon).
   A Python dict is an association list in insertion order. *)
Definition hits_dict := list (string * list (string * list (list H))).

Record batch := Batch {
  b_muons : list muon;                       (* _muons *)
  b_removed : option (list muon);            (* _removed_muons *)
  b_hits : hits_dict;                        (* _hits *)
  b_hist : list (list (xr * xr * xr)) }.     (* _xyz_hist *)

(* muon_batch.py:66-83  __init__: rows [x,y,p,theta,phi] and one init_z for the batch or one per muon.
   F.pad adds a column on the left; then col0 := col1, col1 := col2, col2 := init_z. *)
Definition row5 := (xr * xr * xr * xr * xr)%type.
Definition pad_row (r : row5) (z : xr) : muon :=
  let '(x, y, p, th, ph) := r in
  let c0 := Fin 0 in let c1 := x in let c2 := y in let c3 := p in let c4 := th in let c5 := ph in
  let c0 := c1 in let c1 := c2 in let c2 := z in
  Mu c0 c1 c2 c3 c4 c5.
Definition new_batch (rows : list row5) (init_z : arg) : res batch :=
  match init_z with
  | Sc z => Ok (Batch (map (fun r => pad_row r z) rows) None [] [])
  | Vec zs =>
      if Nat.eqb (List.length zs) (List.length rows) then Ok (Batch (map2 pad_row rows zs) None [] [])
      else match zs with
           | [z] => Ok (Batch (map (fun r => pad_row r z) rows) None [] [])
           | _ => Err RuntimeError
           end
  end.

Definition with_muons (b : batch) (ms : list muon) : batch :=
  Batch ms (b_removed b) (b_hits b) (b_hist b).

(* "mask = torch.ones(len(self._muons)).bool()" when mask is None (e.g. muon_batch.py:190-191) *)
Definition mask_or_ones (n : nat) (mask : option (list bool)) : list bool :=
  match mask with Some m => m | None => all_true n end.

(* muon_batch.py:91-114  phi_from_theta_xy, one element *)
Definition phi_from_theta_xy1 (tx ty : xr) : xr :=
  let phi := xatan (xdiv (xtan ty) (xtan tx)) in
  let phi := if xlt tx (Fin 0) then xadd phi (Fin PI) else phi in
  let phi := if xle (Fin 0) tx && xlt ty (Fin 0) then xadd phi (Fin (2 * PI)) else phi in
  if xle (Fin (PI / 2)) (xabs tx) || xle (Fin (PI / 2)) (xabs ty) then NaN else phi.

(* muon_batch.py:116-134  theta_from_theta_xy, one element *)
Definition theta_from_theta_xy1 (tx ty : xr) : xr :=
  let theta := xatan (xsqrt (xadd (xsquare (xtan tx)) (xsquare (xtan ty)))) in
  if xle (Fin (PI / 2)) (xabs tx) || xle (Fin (PI / 2)) (xabs ty) then NaN else theta.

(* muon_batch.py:136-154  theta_x_from_theta_phi, one element *)
Definition theta_x_from_theta_phi1 (th ph : xr) : xr :=
  let tx := xatan (xmul (xtan th) (xcos ph)) in
  if xle (Fin (PI / 2)) th then NaN else tx.

(* muon_batch.py:156-174  theta_y_from_theta_phi, one element *)
Definition theta_y_from_theta_phi1 (th ph : xr) : xr :=
  let ty := xatan (xmul (xtan th) (xsin ph)) in
  if xle (Fin (PI / 2)) th then NaN else ty.

(* "if d is not None: self._c[mask] = self._c[mask] + d" *)
Definition add_opt (c : column) (mask : list bool) (d : option arg) (ms : list muon) : res (list muon) :=
  match d with
  | None => Ok ms
  | Some a => old <- col_index c mask ms ;; new <- bcast xadd old a ;; col_assign c mask ms new
  end.

(* muon_batch.py:176-197  scatter_dxyz *)
Definition scatter_dxyz (dx dy dz : option arg) (mask : option (list bool)) (b : batch) : res batch :=
  let m := mask_or_ones (List.length (b_muons b)) mask in
  ms <- add_opt cx m dx (b_muons b) ;;
  ms <- add_opt cy m dy ms ;;
  ms <- add_opt cz m dz ms ;;
  Ok (with_muons b ms).

(* muon_batch.py:260-280  filter_muons *)
Definition filter_muons (keep : list bool) (b : batch) : res batch :=
  if Nat.ltb (count_true keep) (List.length (b_muons b)) then
    gone <- bool_index (negm keep) (b_muons b) ;;
    let removed := match b_removed b with None => gone | Some r => r ++ gone end in
    ms <- bool_index keep (b_muons b) ;;
    hits <- mapM (fun pv : string * list (string * list (list H)) =>
              vs <- mapM (fun vt : string * list (list H) =>
                      ts <- mapM (bool_index keep) (snd vt) ;; Ok (fst vt, ts)) (snd pv) ;;
              Ok (fst pv, vs)) (b_hits b) ;;
    Ok (Batch ms (Some removed) hits (b_hist b))
  else Ok b.

(* muon_batch.py:257  keep mask of remove_upwards_muons, one element *)
Definition keep_down (u : muon) : bool :=
  xlt (mth u) (Fin (PI / 2)) && negb (xisnan (mth u)) && negb (xisnan (mph u)).
(* muon_batch.py:251-258  remove_upwards_muons *)
Definition remove_upwards_muons (b : batch) : res batch := filter_muons (map keep_down (b_muons b)) b.

(* muon_batch.py:213-214  dphi part of scatter_dtheta_dphi *)
Definition dphi_part (m : list bool) (dphi : option arg) (ms : list muon) : res (list muon) :=
  match dphi with
  | None => Ok ms
  | Some a =>
      old <- col_index cph m ms ;; s <- bcast xadd old a ;;
      col_assign cph m ms (map (fun v => xmod v (2 * PI)) s)
  end.
(* muon_batch.py:215-223  dtheta part of scatter_dtheta_dphi; fold = the local Boolean mask m *)
Definition dtheta_part (m : list bool) (dth : option arg) (ms : list muon) : res (list muon) :=
  match dth with
  | None => Ok ms
  | Some a =>
      old <- col_index cth m ms ;; s <- bcast xadd old a ;;
      let theta := map (fun v => xmod v (2 * PI)) s in
      phi <- col_index cph m ms ;;
      let fold := map (fun v => xlt (Fin PI) v) theta in
      phi_m <- bool_index fold phi ;;
      phi <- bool_assign fold phi (map (fun v => xmod (xadd v (Fin PI)) (2 * PI)) phi_m) ;;
      theta_m <- bool_index fold theta ;;
      theta <- bool_assign fold theta (map (fun v => xsub (Fin (2 * PI)) v) theta_m) ;;
      ms <- col_assign cph m ms phi ;;
      col_assign cth m ms theta
  end.
(* muon_batch.py:199-224  scatter_dtheta_dphi *)
Definition scatter_dtheta_dphi (dth dphi : option arg) (mask : option (list bool)) (b : batch) : res batch :=
  let m := mask_or_ones (List.length (b_muons b)) mask in
  ms <- dphi_part m dphi (b_muons b) ;;
  ms <- dtheta_part m dth ms ;;
  remove_upwards_muons (with_muons b ms).

(* "if d is not None: v = v + d" *)
Definition vadd_opt (v : list xr) (d : option arg) : res (list xr) :=
  match d with None => Ok v | Some a => bcast_in xadd v a end.

(* muon_batch.py:226-249  scatter_dtheta_xy *)
Definition dtheta_xy_part (m : list bool) (dtx dty : option arg) (ms : list muon) : res (list muon) :=
  th <- col_index cth m ms ;;
  ph <- col_index cph m ms ;;
  let tx := map2 theta_x_from_theta_phi1 th ph in
  let ty := map2 theta_y_from_theta_phi1 th ph in
  tx <- vadd_opt tx dtx ;;
  ty <- vadd_opt ty dty ;;
  ms <- col_assign cth m ms (map2 theta_from_theta_xy1 tx ty) ;;
  col_assign cph m ms (map2 phi_from_theta_xy1 tx ty).
Definition scatter_dtheta_xy (dtx dty : option arg) (mask : option (list bool)) (b : batch) : res batch :=
  let m := mask_or_ones (List.length (b_muons b)) mask in
  ms <- dtheta_xy_part m dtx dty (b_muons b) ;;
  remove_upwards_muons (with_muons b ms).

(* muon_batch.py:282-300  propagate_dz *)
Definition propagate_dz_ms (m : list bool) (dz : arg) (ms : list muon) : res (list muon) :=
  th <- col_index cth m ms ;;
  ph <- col_index cph m ms ;;
  r <- bcast_in (fun c d => xdiv d c) (map xcos th) dz ;;
  let rst := map2 xmul r (map xsin th) in
  x <- col_index cx m ms ;;
  ms <- col_assign cx m ms (map2 xadd x (map2 xmul rst (map xcos ph))) ;;
  y <- col_index cy m ms ;;
  ms <- col_assign cy m ms (map2 xadd y (map2 xmul rst (map xsin ph))) ;;
  z <- col_index cz m ms ;;
  z' <- bcast_in xsub z dz ;;
  col_assign cz m ms z'.
Definition propagate_dz (dz : arg) (mask : option (list bool)) (b : batch) : res batch :=
  ms <- propagate_dz_ms (mask_or_ones (List.length (b_muons b)) mask) dz (b_muons b) ;;
  Ok (with_muons b ms).

(* muon_batch.py:302-319  propagate_d *)
Definition propagate_d_ms (m : list bool) (d : arg) (ms : list muon) : res (list muon) :=
  th <- col_index cth m ms ;;
  ph <- col_index cph m ms ;;
  rst <- bcast_in (fun s d => xmul d s) (map xsin th) d ;;
  x <- col_index cx m ms ;;
  ms <- col_assign cx m ms (map2 xadd x (map2 xmul rst (map xcos ph))) ;;
  y <- col_index cy m ms ;;
  ms <- col_assign cy m ms (map2 xadd y (map2 xmul rst (map xsin ph))) ;;
  z <- col_index cz m ms ;;
  dc <- bcast_in (fun c d => xmul d c) (map xcos th) d ;;
  col_assign cz m ms (map2 xsub z dc).
Definition propagate_d (d : arg) (mask : option (list bool)) (b : batch) : res batch :=
  ms <- propagate_d_ms (mask_or_ones (List.length (b_muons b)) mask) d (b_muons b) ;;
  Ok (with_muons b ms).

(* muon_batch.py:321-337  get_xy_mask with one pair of bounds for the batch *)
Definition in_xy (low high : option (xr * xr)) (u : muon) : bool :=
  let low := match low with Some l => l | None => (NInf, NInf) end in
  let high := match high with Some h => h | None => (PInf, PInf) end in
  xle (fst low) (mx u) && xlt (mx u) (fst high) && xle (snd low) (my u) && xlt (my u) (snd high).
Definition get_xy_mask (low high : option (xr * xr)) (b : batch) : list bool :=
  map (in_xy low high) (b_muons b).

(* muon_batch.py:339-344  snapshot_xyz *)
Definition snapshot_xyz (b : batch) : batch :=
  Batch (b_muons b) (b_removed b) (b_hits b)
        (b_hist b ++ [map (fun u => (mx u, my u, mz u)) (b_muons b)]).

(* d[k] of a defaultdict, then replaced by f of it *)
Fixpoint dict_update {V} (k : string) (dflt : V) (f : V -> V) (d : list (string * V)) : list (string * V) :=
  match d with
  | [] => [(k, f dflt)]
  | (k', v) :: d' => if String.eqb k k' then (k', f v) :: d' else (k', v) :: dict_update k dflt f d'
  end.

(* muon_batch.py:346-356  append_hits *)
Definition append_hits (hits : list (string * list H)) (pos : string) (b : batch) : batch :=
  let d := fold_left
    (fun d (kv : string * list H) =>
       dict_update pos [] (dict_update (fst kv) [] (fun l => l ++ [snd kv])) d) hits (b_hits b) in
  Batch (b_muons b) (b_removed b) d (b_hist b).

(* torch.stack(ts, dim=1): all tensors need the same number of rows; at least one tensor *)
Definition stack1 (ts : list (list H)) : res (list (list H)) :=
  match ts with
  | [] => Err RuntimeError
  | t :: _ =>
      if forallb (fun t' => Nat.eqb (List.length t') (List.length t)) ts
      then Ok (fold_right (map2 cons) (repeat [] (List.length t)) ts)
      else Err RuntimeError
  end.

(* muon_batch.py:358-380  get_hits.  The result maps pos -> var -> rows; one row = the hits of one muon. *)
Definition map_dict2 {V W} (f : V -> res W) (d : list (string * list (string * V)))
  : res (list (string * list (string * W))) :=
  mapM (fun pv : string * list (string * V) =>
    vs <- mapM (fun cv : string * V => w <- f (snd cv) ;; Ok (fst cv, w)) (snd pv) ;;
    Ok (fst pv, vs)) d.
Definition get_hits (low high : option (xr * xr)) (b : batch)
  : res (list (string * list (string * list (list H)))) :=
  match b_hits b with
  | [] => Err ValueError
  | _ =>
    match low, high with
    | None, None => map_dict2 stack1 (b_hits b)
    | _, _ =>
        let m := get_xy_mask low high b in
        map_dict2 (fun ts => s <- stack1 ts ;; bool_index m s) (b_hits b)
    end
  end.

(* muon_batch.py:421-437  copy: columns x,y,p,theta,phi of _muons and the z column as init_z *)
Definition copy (b : batch) : res batch :=
  new_batch (map (fun u => (mx u, my u, mp u, mth u, mph u)) (b_muons b)) (Vec (map mz (b_muons b))).

(* muon_batch.py:382-419  dtheta_x, dtheta_y, dtheta: absolute difference to a reference angle *)
Definition dtheta_to (get : muon -> xr) (ref : list xr) (b : batch) : res (list xr) :=
  d <- bcast xsub (map get (b_muons b)) (Vec ref) ;; Ok (map xabs d).
(* muon_batch.py: properties theta_x, theta_y of the batch *)
Definition mu_theta_x (u : muon) : xr := theta_x_from_theta_phi1 (mth u) (mph u).
Definition mu_theta_y (u : muon) : xr := theta_y_from_theta_phi1 (mth u) (mph u).

End Hits.

Arguments Batch {H}.
Arguments b_muons {H}. Arguments b_removed {H}. Arguments b_hits {H}. Arguments b_hist {H}.
Arguments new_batch {H}. Arguments with_muons {H}. Arguments scatter_dxyz {H}.
Arguments filter_muons {H}. Arguments remove_upwards_muons {H}. Arguments scatter_dtheta_dphi {H}.
Arguments scatter_dtheta_xy {H}. Arguments propagate_dz {H}. Arguments propagate_d {H}.
Arguments get_xy_mask {H}. Arguments snapshot_xyz {H}. Arguments append_hits {H}.
Arguments stack1 {H}. Arguments get_hits {H}. Arguments copy {H}.
Arguments dtheta_to {H}.

(* The public operations as data, and a history of them *)
Inductive op (H : Type) :=
| OScatterXYZ (dx dy dz : option arg) (mask : option (list bool))
| OScatterThPh (dth dph : option arg) (mask : option (list bool))
| OScatterThXY (dtx dty : option arg) (mask : option (list bool))
| OPropDz (dz : arg) (mask : option (list bool))
| OPropD (d : arg) (mask : option (list bool))
| OFilter (keep : list bool)
| ORemoveUp
| OSnapshot
| OAppend (hits : list (string * list H)) (pos : string).
Arguments OScatterXYZ {H}. Arguments OScatterThPh {H}. Arguments OScatterThXY {H}.
Arguments OPropDz {H}. Arguments OPropD {H}. Arguments OFilter {H}. Arguments ORemoveUp {H}.
Arguments OSnapshot {H}. Arguments OAppend {H}.

Definition exec {H} (b : batch H) (o : op H) : res (batch H) :=
  match o with
  | OScatterXYZ dx dy dz m => scatter_dxyz dx dy dz m b
  | OScatterThPh dth dph m => scatter_dtheta_dphi dth dph m b
  | OScatterThXY dtx dty m => scatter_dtheta_xy dtx dty m b
  | OPropDz dz m => propagate_dz dz m b
  | OPropD d m => propagate_d d m b
  | OFilter keep => filter_muons keep b
  | ORemoveUp => remove_upwards_muons b
  | OSnapshot => Ok (snapshot_xyz b)
  | OAppend hits pos => Ok (append_hits hits pos b)
  end.
Definition exec_all {H} (ops : list (op H)) (b : batch H) : res (batch H) := foldM exec ops b.
