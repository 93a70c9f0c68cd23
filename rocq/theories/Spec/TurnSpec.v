(* X0 inference with x and y exchanged (C110). *)
From Coq Require Import Reals List Lia.
From Verif Require Import Model.Volume Model.X0Infer Spec.VolumeSpec Spec.InferSpec.
From Verif Require Import Base.XR.
Open Scope R_scope.
Open Scope list_scope.

Definition turn3 {A} (p : A * A * A) : A * A * A := let '(x, y, z) := p in (y, x, z).
(* the values of nx * ny * nz voxels, z first, then x, then y, written with y before x *)
Definition turn_preds (nx ny nz : nat) (l : list xr) : list xr :=
  flat_map (fun k => flat_map (fun j => map (fun i => nth ((k * nx + i) * ny + j) l NaN) (seq 0 nx)) (seq 0 ny)) (seq 0 nz).
Definition turn_answer (nx ny nz : nat) (a : ians) : ians := match a with AVec l => AVec (turn_preds nx ny nz l) | _ => a end.
Definition turn_seen (m : smuon) : smuon :=
  SMuon (turn3 (k_poca m)) (turn3 (k_poca_u m)) (k_tot m) (k_tot_u m) (k_in m) (k_in_u m) (k_out m) (k_out_u m) (k_mom m) (k_above m) (k_below m).
Definition turn_passive (L : passive) : passive := Passive (pl_ly L) (pl_lx L) (pl_z L) (pl_size L) (pl_step L) (pl_rad L) (pl_model L).
Definition turn_layer (l : layer) : layer := match l with LPass L => LPass (turn_passive L) | LDet D => LDet D end.
(* voxels of the second grid are those of the first with x and y exchanged *)
Definition turned (g g' : grid) : Prop :=
  g_nx g' = g_ny g /\ g_ny g' = g_nx g /\ g_nz g' = g_nz g /\ g_size g' = g_size g
  /\ List.length (g_edges g) = (g_nx g * g_ny g * g_nz g)%nat /\ List.length (g_edges g') = (g_nx g * g_ny g * g_nz g)%nat
  /\ forall i j k, (i < g_nx g)%nat -> (j < g_ny g)%nat -> (k < g_nz g)%nat ->
       nth_error (g_edges g') ((j * g_nx g + i) * g_nz g + k) = option_map turn3 (nth_error (g_edges g) ((i * g_ny g + j) * g_nz g + k)).
