(* Model of the uncertainties got from gradients: utils.py (jacobian), inference/scattering.py (_compute_out_var_unc) and
   inference/volume.py (_get_voxel_zxy_x0_pred_uncs).  What autograd gives is an argument: vjp v is the gradient of the sum of
   the outputs weighted with v, None when the outputs do not depend on the inputs.  Spec/GradSpec.v says what a right one is. *)
From Verif Require Export Model.Scatter.
Open Scope R_scope.
Open Scope list_scope.

(* a row of torch.eye(n) *)
Definition unit_row (n a : nat) : list R := map (fun i => if Nat.eqb i a then 1 else 0) (seq 0 n).
(* utils.py:14-39  jacobian; n: the number of elements of y.  No elements: None.  None.reshape raises *)
Definition jacobian (n : nat) (vjp : list R -> option (list xr)) : res (option (list (list xr))) :=
  if Nat.eqb n 0 then Ok None
  else rows <- mapM (fun a => match vjp (unit_row n a) with Some r => Ok r | None => Err AttributeError end) (seq 0 n) ;;
       Ok (Some rows).

(* torch.nan_to_num(jacobian(...)): nan_to_num(None) raises *)
Definition clean_jacobian (n : nat) (vjp : list R -> option (list xr)) : res (list (list xr)) :=
  j <- jacobian n vjp ;; match j with Some rows => Ok (map (map nan_to_num) rows) | None => Err TypeErr end.
(* torch.where(isinf(unc), 0, unc) *)
Definition no_inf (u : xr) : xr := if xisinf u then Fin 0 else u.
(* (jac * unc).square().sum(-1).sqrt() *)
Definition propagate (jac unc : list xr) : xr := xsqrt (xsum (map xsquare (map2 xmul jac unc))).

(* .sum(2): over the muons whose hits are varied; k entries per muon *)
Definition sum_muons (muons k : nat) (row : list xr) : list xr :=
  map (fun j => xsum (map (fun m => nth (m * k + j) row NaN) (seq 0 muons))) (seq 0 k).
(* reshape: n parts of k entries *)
Definition parts {A} (k n : nat) (l : list A) : list (list A) := map (fun i => firstn k (skipn (i * k) l)) (seq 0 n).
(* scattering.py:515-539  _compute_out_var_unc for a variable of nv components; uncs: hit_uncs, one row of panels per muon *)
Definition out_var_unc (vjp : list R -> option (list xr)) (nv : nat) (uncs : list (list v3)) : res (list (list xr)) :=
  let muons := List.length uncs in
  jac <- clean_jacobian (muons * nv) vjp ;;
  let flat := map (fun row => map no_inf (flat_map l3 row)) uncs in
  Ok (map2 (fun rows u => map (fun row => propagate (sum_muons muons (List.length u) row) u) rows) (parts nv muons jac) flat).
(* The gradient with respect to the recorded hits.  The tracks of a GenScatterBatch are made from the true hits
   (scattering.py:1128-1135): nothing depends on the recorded ones. *)
Definition grad_reco (gen : bool) (vjp : list R -> list xr) (v : list R) : option (list xr) := if gen then None else Some (vjp v).

(* inference/volume.py:271-295  _get_voxel_zxy_x0_pred_uncs, voxels in one list; uncs: one row of variables per muon *)
Definition x0_pred_uncs (vjp : list R -> option (list xr)) (voxels : nat) (uncs : list (list xr)) : res (list xr) :=
  jac <- clean_jacobian voxels vjp ;;
  Ok (map (fun row => propagate row (map no_inf (concat uncs))) jac).
