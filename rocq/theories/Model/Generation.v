(* Model of muon/generation.py: the binned flux, sampling, and the two flux models.
   numpy's random numbers are arguments, as the fraction r in [0, 1) that uniform(lo, hi) scales to lo + (hi - lo) r.
   Not modelled: conversion of the result to float32. *)
From Verif Require Export Base.Res Base.XR.
Open Scope R_scope.
Open Scope list_scope.

(* np.random.uniform(lo, hi) *)
Definition uniform (lo hi r : R) : R := lo + (hi - lo) * r.
(* a number of steps evenly spaced from a to b, both included: n + 1 values *)
Definition linspace (a b : R) (n : nat) : list R := map (fun i => a + INR i / INR n * (b - a)) (seq 0 (n + 1)).
(* np.geomspace, for ends of the same sign; a zero raises (ends of opposite sign, which give complex numbers, are not modelled) *)
Definition geomspace (a b : R) (n : nat) : res (list R) :=
  if Reqb a 0 || Reqb b 0 then Err ValueError else Ok (map (fun i => a * Rpower (b / a) (INR i / INR n)) (seq 0 (n + 1))).
(* np.mean(np.vstack([e[0:-1], e[1:]]), axis=0) *)
Definition centres (e : list R) : list R := map (fun p => (fst p + snd p) / 2) (combine (removelast e) (tl e)).
(* np.cumsum *)
Fixpoint cumsum_from (s : xr) (l : list xr) : list xr := match l with [] => [] | x :: l' => xadd s x :: cumsum_from (xadd s x) l' end.
Definition cumsum (l : list xr) : list xr := cumsum_from (Fin 0) l.
(* a.searchsorted(u): the first index that does not lie before u; for an ascending a (numpy's binary search finds the same one) *)
Fixpoint searchsorted (a : list xr) (u : R) : nat := match a with [] => 0%nat | x :: a' => if xlt x (Fin u) then S (searchsorted a' u) else 0%nat end.

Record generator := Gen {
  g_x : R * R;  g_y : R * R;                    (* x_range, y_range *)
  g_mom : option R;                              (* _fixed_mom *)
  g_energy : list R;  g_theta : list R;          (* _energy_centres, _theta_centres *)
  g_cum : list xr }.                             (* _cumulative_flux *)

(* 39-40  _n_bins_energy, _n_bins_theta *)
Definition n_bins_energy : nat := 200.
Definition n_bins_theta : nat := 200.

(* 42-65  __init__; flux: energy, theta *)
Definition new_generator (flux : R -> R -> xr) (x_range y_range : R * R) (fixed_mom : option R) (energy_range theta_range : R * R) : res generator :=
  energy_edges <- geomspace (fst energy_range) (snd energy_range) n_bins_energy ;;
  let theta_edges := linspace (fst theta_range) (snd theta_range) n_bins_theta in
  let es := centres energy_edges in
  let ts := centres theta_edges in
  Ok (Gen x_range y_range fixed_mom es ts (cumsum (flat_map (fun t => map (fun e => flux e t) es) ts))).

(* 93-119  from_volume: lw, h, bottom of the passive volume, voxel size *)
Definition from_volume (flux : R -> R -> xr) (lw : R * R) (h z_low size min_angle : R) (fixed_mom : option R) (energy_range theta_range : R * R) : res generator :=
  let d := tan min_angle * (h - z_low + size) in
  new_generator flux (0 - d, fst lw + d) (0 - d, snd lw + d) fixed_mom energy_range theta_range.

Record muon_row := Row { m_x : R; m_y : R; m_p : xr; m_theta : R; m_phi : R }.
Definition get {A} (l : list A) (i : nat) : res A := match nth_error l i with Some x => Ok x | None => Err IndexError end.
(* the random numbers of one muon, from the four calls of np.random.uniform *)
Record draw := Draw { d_flux : R; d_phi : R; d_x : R; d_y : R }.
(* 135-152  generate_set, for one muon; mass2: _muon_mass2; total: the last cumulative flux *)
Definition sample1 (mass2 : R) (g : generator) (total : R) (d : draw) : res muon_row :=
  let i := searchsorted (g_cum g) (uniform 0 total (d_flux d)) in
  let theta_index := (i / n_bins_energy)%nat in
  let energy_index := (i mod n_bins_energy)%nat in
  p <- match g_mom g with
       | None => e <- get (g_energy g) energy_index ;; Ok (xsqrt (Fin (e * e - mass2)))
       | Some p => Ok (Fin p)
       end ;;
  theta <- get (g_theta g) theta_index ;;
  Ok (Row (uniform (fst (g_x g)) (snd (g_x g)) (d_x d)) (uniform (fst (g_y g)) (snd (g_y g)) (d_y d)) p theta (uniform 0 (2 * PI) (d_phi d))).
(* 121-152  generate_set; np.random.uniform refuses a range that is not finite, for any number of muons (135) *)
Definition generate_set (mass2 : R) (g : generator) (ds : list draw) : res (list muon_row) :=
  match g_cum g with
  | [] => Err IndexError
  | _ => match last (g_cum g) NaN with Fin total => mapM (sample1 mass2 g total) ds | _ => Err OverflowError end
  end.

(* powers as numpy computes them: NaN for a negative base and an exponent that is not an integer *)
Definition xpow (a : xr) (e : R) : xr :=
  match a with
  | Fin x => if Rlt_dec 0 x then Fin (Rpower x e) else if Rlt_dec x 0 then NaN
             else if Rlt_dec 0 e then Fin 0 else if Rlt_dec e 0 then PInf else Fin 1
  | PInf => if Rlt_dec 0 e then PInf else if Rlt_dec e 0 then Fin 0 else Fin 1
  | _ => NaN
  end.

(* 171-199  MuonGenerator2015.flux *)
Definition P1 := 0.102573.  Definition P2 := -0.068287.  Definition P3 := 0.958633.  Definition P4 := 0.0407253.  Definition P5 := 0.817285.
Definition flux2015 (energy theta : R) : xr :=
  let c := Fin (cos theta) in
  let cosine := xsqrt (xdiv (xadd (xadd (xadd (xmul c c) (Fin (P1 * P1))) (xmul (Fin P2) (xpow c P3))) (xmul (Fin P4) (xpow c P5))) (Fin (1 + P1 * P1 + P2 + P4))) in
  let e := Fin energy in
  let term k d := xdiv (Fin k) (xadd (Fin 1) (xdiv (xmul (xmul (Fin 1.1) e) cosine) (Fin d))) in
  xmul (xmul (xmul (xmul (Fin 0.14)
    (xpow (xmul e (xadd (Fin 1) (xdiv (Fin 3.64) (xmul e (xpow cosine 1.29))))) (-2.7)))
    (xadd (term 1 115) (term 0.054 850)))
    c)
    (Fin (sin theta)).

(* 218-241  MuonGenerator2016.flux; integer exponents as products *)
Definition I_0 := 88.  Definition E_0 := 3.87.  Definition E_c := 0.5.  Definition epinv := 1 / 854.  Definition Rod := 174.
Definition N_2016 := 2 * ((E_0 + E_c) * (E_0 + E_c)).
Definition flux2016 (energy theta : R) : xr :=
  let c := cos theta in
  let s := xsub (xsqrt (Fin (Rod * Rod * (c * c) + 2 * Rod + 1))) (Fin (Rod * c)) in
  let Cosine := xdiv (Fin 1) (xmul s s) in
  let a := E_0 + energy in
  xmul (xmul (xmul (xmul (xmul (xmul (Fin I_0) (Fin N_2016)) (xdiv (Fin 1) (Fin (a * a * a)))) (xdiv (Fin 1) (Fin (1 + energy * epinv)))) Cosine)
    (Fin c)) (Fin (sin theta)).
