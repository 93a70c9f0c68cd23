(* Model of tomopt/volume/layer.py: PassiveLayer.
   Positions, sizes and radiation lengths of the layer are real numbers; the muons are as in Model/MuonBatch.
   The random numbers of one call (torch.randn) are an argument. *)
From Coq Require Import ZArith.
From Verif Require Export Model.MuonBatch.
Open Scope R_scope.
Open Scope string_scope.
Open Scope list_scope.

(* core.py:17-18  SCATTER_COEF_A, SCATTER_COEF_B *)
Definition SCATTER_COEF_A : R := 136 / 10000.
Definition SCATTER_COEF_B : R := 38 / 1000.

(* layer.py:107-121  attributes of a PassiveLayer: lw, z (top), size, step_sz, rad_length, scatter_model.
   rad_length is a (n_x, n_y) tensor: a list of rows. *)
Record passive := Passive {
  pl_lx : R; pl_ly : R; pl_z : R; pl_size : R; pl_step : R;
  pl_rad : option (list (list R));
  pl_model : string }.

Definition pl_bot (L : passive) : R := pl_z L - pl_size L.

(* layer.py:126-134  load_rad_length: the function is called with z, lw and size of the layer *)
Definition load_rad_length (f : R -> R * R -> R -> list (list R)) (L : passive) : passive :=
  Passive (pl_lx L) (pl_ly L) (pl_z L) (pl_size L) (pl_step L)
          (Some (f (pl_z L) (pl_lx L, pl_ly L) (pl_size L))) (pl_model L).

(* one standard-normal draw for each of the two axes of z1 and z2 (layer.py:281-282), for one muon *)
Record draw := Draw { z1x : R; z1y : R; z2x : R; z2y : R }.

(* layer.py:335-343  the returned dictionary, for one muon *)
Record scattering := Scat {
  s_dtheta_x_vol : xr; s_dtheta_y_vol : xr;
  s_dx_vol : xr; s_dy_vol : xr; s_dz_vol : xr;
  s_dtheta_x_m : xr; s_dtheta_y_m : xr }.

(* layer.py:239  floor(xy / size).long(), one coordinate.  The conversion of a non-finite number to an integer is
   undefined in torch: None here, an IndexError where it is used. *)
Definition abs2idx1 (size : R) (v : xr) : option Z :=
  match v with Fin x => Some (Rfloor (x / size)) | _ => None end.

(* tensor indexing by one integer: negative indices count from the end *)
Definition int_index {A} (l : list A) (i : Z) : res A :=
  let n := Z.of_nat (List.length l) in
  let j := if Z.ltb i 0 then (i + n)%Z else i in
  if Z.ltb j 0 then Err IndexError
  else match nth_error l (Z.to_nat j) with Some a => Ok a | None => Err IndexError end.

(* layer.py:171-172 (and 203-239)  X0 of the voxel below one muon: rad_length[xy_idx[:,0], xy_idx[:,1]] *)
Definition lookup_x0 (L : passive) (rad : list (list R)) (u : muon) : res R :=
  match abs2idx1 (pl_size L) (mx u), abs2idx1 (pl_size L) (my u) with
  | Some i, Some j => row <- int_index rad i ;; int_index row j
  | _, _ => Err IndexError
  end.

(* torch.where for one element *)
Definition xwhere (c : bool) (a b : xr) : xr := if c then a else b.

(* layer.py:258-343  _pdg_scatter, elementwise, log_term=True *)
Definition pdg_scatter1 (x0 theta phi theta_x theta_y mom step_sz : xr) (d : draw) : scattering :=
  let n_x0 := xdiv step_sz x0 in
  let theta0 := xmul (xdiv (Fin SCATTER_COEF_A) mom) (xsqrt n_x0) in
  let theta0 := xmul theta0 (xadd (Fin 1) (xmul (Fin SCATTER_COEF_B) (xlog n_x0))) in
  let dtheta_x_m := xclamp_max (PI / (22 / 10)) (xmul (Fin (z2x d)) theta0) in
  let dtheta_y_m := xclamp_max (PI / (22 / 10)) (xmul (Fin (z2y d)) theta0) in
  let dxy_mu_0 := xmul (xmul step_sz theta0) (xadd (Fin (z1x d / sqrt 12)) (Fin (z2x d / 2))) in
  let dxy_mu_1 := xmul (xmul step_sz theta0) (xadd (Fin (z1y d / sqrt 12)) (Fin (z2y d / 2))) in
  let phi_defined := negb (xeq theta (Fin 0)) in
  let dx_vol := xwhere phi_defined
     (xsub (xmul (xopp dxy_mu_0) (xsin phi)) (xmul (xmul dxy_mu_1 (xcos (xopp theta))) (xcos phi))) dxy_mu_0 in
  let dy_vol := xwhere phi_defined
     (xsub (xmul dxy_mu_0 (xcos phi)) (xmul (xmul dxy_mu_1 (xcos (xopp theta))) (xsin phi))) dxy_mu_1 in
  let dz_vol := xwhere phi_defined (xmul dxy_mu_1 (xsin (xopp theta))) (Fin 0) in
  let ref0 := xtan theta_x in
  let ref1 := xtan theta_y in
  let ref2 := Fin 1 in
  let r := xsqrt (xadd (xadd (xsquare ref0) (xsquare ref1)) (xsquare ref2)) in
  let dx_m := xmul r (xtan dtheta_x_m) in
  let dy_m := xmul r (xtan dtheta_y_m) in
  let dx_vol_angle := xwhere phi_defined
     (xsub (xmul (xopp dx_m) (xsin phi)) (xmul (xmul dy_m (xcos theta)) (xcos phi))) dx_m in
  let dy_vol_angle := xwhere phi_defined
     (xsub (xmul dx_m (xcos phi)) (xmul (xmul dy_m (xcos theta)) (xsin phi))) dy_m in
  let dz_vol_angle := xwhere phi_defined (xmul dy_m (xsin theta)) (Fin 0) in
  let d_out_0 := xadd (xopp ref0) dx_vol_angle in
  let d_out_1 := xadd (xopp ref1) dy_vol_angle in
  let d_out_2 := xadd (xopp ref2) dz_vol_angle in
  Scat (xsub (xatan (xdiv d_out_0 d_out_2)) theta_x)
       (xsub (xatan (xdiv d_out_1 d_out_2)) theta_y)
       dx_vol dy_vol dz_vol dtheta_x_m dtheta_y_m.

(* layer.py:345-366  _compute_scattering on the list of selected muons, each with its X0 and step length.
   pgeant: scatter_model.py compute_scattering raises NotImplementedError. *)
Definition compute_scattering (L : passive) (rng : nat -> draw) (sel : list (muon * R * xr)) : res (list scattering) :=
  if String.eqb (pl_model L) "pdg" then
    Ok (map2 (fun (q : muon * R * xr) d =>
                let '(u, x0, st) := q in
                pdg_scatter1 (Fin x0) (mth u) (mph u) (mu_theta_x u) (mu_theta_y u) (mp u) st d)
             sel (map rng (seq 0 (List.length sel))))
  else if String.eqb (pl_model L) "pgeant" then Err NotImplementedError
  else Err ValueError.

(* mask & mask; shapes equal (broadcasting of a one-element mask is not modelled) *)
Definition mask_and (a b : list bool) : res (list bool) :=
  if Nat.eqb (List.length a) (List.length b) then Ok (map2 andb a b) else Err RuntimeError.

Section Layer.
Variable H : Type.
Notation batch := (batch H).

(* layer.py:153-201  scatter_and_propagate.
   rng: the draws of this call, the i-th for the i-th muon selected by scatter_mask. *)
Definition scatter_and_propagate (L : passive) (rng : nat -> draw) (mask : list bool) (b : batch) : res batch :=
  match pl_rad L with
  | Some rad =>
      scatter_mask <- mask_and (get_xy_mask (Some (Fin 0, Fin 0)) (Some (Fin (pl_lx L), Fin (pl_ly L))) b) mask ;;
      sel <- bool_index scatter_mask (b_muons b) ;;
      x0 <- mapM (lookup_x0 L rad) sel ;;
      let step_sz := map (fun u =>
          let dz := xsub (mz u) (Fin (pl_bot L)) in
          let r_out := xdiv dz (xcos (mth u)) in
          if xlt r_out (Fin (pl_step L)) then r_out else Fin (pl_step L)) sel in
      sc <- compute_scattering L rng (map2 (fun ux st => (ux, st)) (map2 pair sel x0) step_sz) ;;
      b <- scatter_dxyz (Some (Vec (map s_dx_vol sc))) (Some (Vec (map s_dy_vol sc))) (Some (Vec (map s_dz_vol sc)))
             (Some scatter_mask) b ;;
      b <- propagate_d (Sc (Fin (pl_step L))) (Some mask) b ;;
      let dz := map (fun u => xsub (mz u) (Fin (pl_bot L))) (b_muons b) in
      exit_mask <- mask_and (map (fun v => xlt v (Fin 0)) dz) mask ;;
      dz_exit <- bool_index exit_mask dz ;;
      b <- propagate_dz (Vec dz_exit) (Some exit_mask) b ;;
      scatter_dtheta_xy (Some (Vec (map s_dtheta_x_vol sc))) (Some (Vec (map s_dtheta_y_vol sc))) (Some scatter_mask) b
  | None => propagate_d (Sc (Fin (pl_step L))) (Some mask) b
  end.

(* layer.py:150  mask of the muons inside the layer *)
Definition in_layer (L : passive) (u : muon) : bool :=
  xlt (Fin (pl_bot L)) (mz u) && xle (mz u) (Fin (pl_z L)).

(* layer.py:147-150  the while loop.  fuel bounds the number of iterations; None: the bound was reached.
   rng k: the draws of iteration k. *)
Fixpoint layer_loop (L : passive) (rng : nat -> nat -> draw) (fuel k : nat) (mask : list bool) (b : batch)
  : option (res batch) :=
  if existsb (fun x => x) mask then
    match fuel with
    | O => None
    | S fuel =>
        match scatter_and_propagate L (rng k) mask b with
        | Err e => Some (Err e)
        | Ok b => layer_loop L rng fuel (S k) (map (in_layer L) (b_muons b)) b
        end
    end
  else Some (Ok b).

(* layer.py:136-151  forward *)
Definition layer_forward (L : passive) (rng : nat -> nat -> draw) (fuel : nat) (b : batch) : option (res batch) :=
  match propagate_dz (Vec (map (fun u => xsub (mz u) (Fin (pl_z L))) (b_muons b))) None b with
  | Err e => Some (Err e)
  | Ok b =>
      match layer_loop L rng fuel 0 (all_true (List.length (b_muons b))) b with
      | None => None
      | Some (Err e) => Some (Err e)
      | Some (Ok b) =>
          Some (propagate_dz (Vec (map (fun u => xsub (mz u) (Fin (pl_bot L))) (b_muons b))) None b)
      end
  end.
End Layer.

Arguments scatter_and_propagate {H}. Arguments layer_loop {H}. Arguments layer_forward {H}.
