(* X0 inference with the muons mirrored in the middle of the volume (C110). *)
From Coq Require Import Reals List Lia.
From Verif Require Import Model.Volume Model.X0Infer Spec.VolumeSpec Spec.InferSpec.
From Verif Require Import Base.XR.
Open Scope R_scope.
Open Scope list_scope.

Definition mirror_x (w : R) (p : xr * xr * xr) : xr * xr * xr := let '(x, y, z) := p in (xsub (Fin w) x, y, z).
Definition mirror_seen (w : R) (m : smuon) : smuon :=
  SMuon (mirror_x w (k_poca m)) (k_poca_u m) (k_tot m) (k_tot_u m) (k_in m) (k_in_u m) (k_out m) (k_out_u m) (k_mom m) (k_above m) (k_below m).
(* the values of nx * ny * nz voxels, z first, then x, then y, with x counted from the other end *)
Definition mirror_preds (nx ny nz : nat) (l : list xr) : list xr :=
  flat_map (fun k => flat_map (fun i => map (fun j => nth ((k * nx + (nx - 1 - i)) * ny + j) l NaN) (seq 0 ny)) (seq 0 nx)) (seq 0 nz).
Definition mirror_answer (nx ny nz : nat) (a : ians) : ians := match a with AVec l => AVec (mirror_preds nx ny nz l) | _ => a end.
(* distributions that are symmetric, as every Normal *)
Definition symmetric (cdf : R -> R -> R -> R) : Prop := forall c l s x, cdf (c - l) s (c - x) = 1 - cdf l s x.
(* voxel i from one end is as far from it as voxel i from the other end is from that, in a volume of length w *)
Definition even_grid (w : R) (g : grid) : Prop :=
  List.length (g_edges g) = (g_nx g * g_ny g * g_nz g)%nat
  /\ forall i j k, (i < g_nx g)%nat -> (j < g_ny g)%nat -> (k < g_nz g)%nat -> exists x y z,
       nth_error (g_edges g) (((g_nx g - 1 - i) * g_ny g + j) * g_nz g + k) = Some (x, y, z)
       /\ nth_error (g_edges g) ((i * g_ny g + j) * g_nz g + k) = Some (w - x - g_size g, y, z).
