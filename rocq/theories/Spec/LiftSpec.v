(* A volume with everything in it moved up by h. *)
From Coq Require Import Reals List String.
From Verif Require Import Model.Volume Model.X0Infer Spec.VolumeSpec Spec.InferSpec.
From Verif Require Import Base.XR.
Open Scope R_scope.
Open Scope string_scope.
Open Scope list_scope.

Section Lift.
Variable h : R.
Definition up_z (z : xr) : xr := xadd z (Fin h).
Definition up_muon (u : muon) : muon := Mu (mx u) (my u) (up_z (mz u)) (mp u) (mth u) (mph u).
(* a row of a hit tensor that is a place *)
Definition up_row (r : hrow) : hrow := match r with [x; y; z] => [x; y; up_z z] | _ => r end.
Definition up_rows (name : string) (t : list hrow) : list hrow := if String.eqb name "reco_xyz" || String.eqb name "gen_xyz" then map up_row t else t.
Definition up_var (v : string * list (list hrow)) : string * list (list hrow) := (fst v, map (up_rows (fst v)) (snd v)).
Definition up_hits (d : hits_dict hrow) : hits_dict hrow := map (fun pv => (fst pv, map up_var (snd pv))) d.
Definition up_place (p : xr * xr * xr) : xr * xr * xr := let '(x, y, z) := p in (x, y, up_z z).
Definition up_batch (b : batch hrow) : batch hrow :=
  Batch (map up_muon (b_muons b)) (option_map (map up_muon) (b_removed b)) (up_hits (b_hits b)) (map (map up_place) (b_hist b)).
Definition up_passive (L : passive) : passive := Passive (pl_lx L) (pl_ly L) (pl_z L + h) (pl_size L) (pl_step L) (pl_rad L) (pl_model L).
Definition up_panel (P : panel) : panel := with_place P (pn_x P) (pn_y P) (pn_z P + h) (pn_sx P) (pn_sy P).
Definition up_det (D : detlayer) : detlayer := Det (dl_pos D) (dl_lx D) (dl_ly D) (dl_z D + h) (dl_size D) (map up_panel (dl_panels D)).
Definition up_layer (l : layer) : layer := match l with LPass L => LPass (up_passive L) | LDet D => LDet (up_det D) end.
Definition up_volume (V : volume) : volume := Volume (map up_layer (v_layers V)) (v_budget V) (v_weights V) (v_target V).
(* a muon in a scatter batch, and a lower corner of a voxel *)
Definition up_seen (k : smuon) : smuon :=
  SMuon (up_place (k_poca k)) (k_poca_u k) (k_tot k) (k_tot_u k) (k_in k) (k_in_u k) (k_out k) (k_out_u k) (k_mom k) (k_above k) (k_below k).
Definition up_corner (e : R * R * R) : R * R * R := let '(x, y, z) := e in (x, y, z + h).
Definition up_grid (g : grid) : grid := Grid (g_nx g) (g_ny g) (g_nz g) (g_size g) (map up_corner (g_edges g)).
End Lift.

(* a sorting that only compares: numbers in the same order give the same permutation *)
Definition by_comparison (f : list R -> list nat) : Prop :=
  forall l l', length l = length l' -> (forall i j, (i < length l)%nat -> (j < length l)%nat -> (nth i l 0 <= nth j l 0 <-> nth i l' 0 <= nth j l' 0)) -> f l = f l'.
(* a family of distributions that is moved with its location *)
Definition moves_along (cdf : R -> R -> R -> R) : Prop := forall l s x h, cdf (l + h) s (x + h) = cdf l s x.
