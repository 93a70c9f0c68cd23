(* A volume with everything in it enlarged k times. *)
From Coq Require Import Reals List String.
From Verif Require Import Model.Volume Spec.VolumeSpec.
From Verif Require Import Base.XR.
Open Scope R_scope.
Open Scope string_scope.
Open Scope list_scope.

Section Enlarge.
Variable k : R.
Definition big (v : xr) : xr := xmul (Fin k) v.
Definition big_muon (u : muon) : muon := Mu (big (mx u)) (big (my u)) (big (mz u)) (mp u) (mth u) (mph u).
(* hit tensors that are places, or uncertainties of places *)
Definition big_rows (name : string) (t : list hrow) : list hrow :=
  if String.eqb name "reco_xyz" || String.eqb name "gen_xyz" || String.eqb name "unc_xyz" then map (map big) t else t.
Definition big_var (v : string * list (list hrow)) : string * list (list hrow) := (fst v, map (big_rows (fst v)) (snd v)).
Definition big_hits (d : hits_dict hrow) : hits_dict hrow := map (fun pv => (fst pv, map big_var (snd pv))) d.
Definition big_place (p : xr * xr * xr) : xr * xr * xr := let '(x, y, z) := p in (big x, big y, big z).
Definition big_batch (b : batch hrow) : batch hrow :=
  Batch (map big_muon (b_muons b)) (option_map (map big_muon) (b_removed b)) (big_hits (b_hits b)) (map (map big_place) (b_hist b)).
(* radiation lengths are lengths *)
Definition big_passive (L : passive) : passive :=
  Passive (k * pl_lx L) (k * pl_ly L) (k * pl_z L) (k * pl_size L) (k * pl_step L) (option_map (map (map (Rmult k))) (pl_rad L)) (pl_model L).
(* a resolution is one over a length, a cost per area is one over an area *)
Definition big_panel (P : panel) : panel :=
  Panel (pn_resp P) (pn_res P / k) (pn_eff P) (k * pn_x P) (k * pn_y P) (k * pn_z P) (k * pn_sx P) (k * pn_sy P) (pn_m2 P / (k * k)) (pn_scale P) (pn_real P).
Definition big_det (D : detlayer) : detlayer := Det (dl_pos D) (k * dl_lx D) (k * dl_ly D) (k * dl_z D) (k * dl_size D) (map big_panel (dl_panels D)).
Definition big_layer (l : layer) : layer := match l with LPass L => LPass (big_passive L) | LDet D => LDet (big_det D) end.
Definition big_volume (V : volume) : volume := Volume (map big_layer (v_layers V)) (v_budget V) (v_weights V) (v_target V).
End Enlarge.
