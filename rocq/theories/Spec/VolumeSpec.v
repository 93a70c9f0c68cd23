(* What detectors and volumes are meant to do. *)
From Coq Require Import ZArith Permutation Sorted.
From Verif Require Import Model.Volume Spec.MuonSpec Spec.AngleSpec Spec.LayerSpec.
Open Scope R_scope.
Open Scope string_scope.
Open Scope list_scope.

(* what numpy promises about argsort: the positions 0..n-1 in some order that makes the values non-decreasing *)
Definition is_argsort (f : list R -> list nat) : Prop :=
  forall l, Permutation (f l) (seq 0 (List.length l)) /\ StronglySorted Rle (map (fun i => nth i l 0) (f l)).

(* numbers from highest to lowest *)
Fixpoint insert_down (z : R) (l : list R) : list R :=
  match l with [] => [z] | x :: l' => if Rle_dec x z then z :: l else x :: insert_down z l' end.
Definition sort_down (l : list R) : list R := fold_right insert_down [] l.

(* the heights at which a muon is to be seen by the detectors at position pos, from first to last *)
Definition hit_heights (pos : string) (ls : list layer) : list R :=
  flat_map (fun l => match l with
                     | LDet D => if String.eqb (dl_pos D) pos then sort_down (map pn_z (dl_panels D)) else []
                     | LPass _ => [] end) ls.

(* the muon at height z on its line of flight *)
Definition at_height (c : go_case) (z : R) : muon := along c ((g_z c - z) / cos (g_th c)).
Definition xyz (u : muon) : list xr := [mx u; my u; mz u].

(* the tensors recorded so far for one position and variable, oldest first *)
Definition recorded {H} (p v : string) (d : hits_dict H) : list (list H) :=
  match assoc2 p v d with Some ts => ts | None => [] end.

Definition hit_variables : list string := ["reco_xyz"; "gen_xyz"; "unc_xyz"; "eff"].
(* entries per hit *)
Definition entries (v : string) : nat := if String.eqb v "eff" then 1%nat else 3%nat.

(* a passive layer that muons can cross *)
Definition passive_ok (L : passive) : Prop := 0 < pl_size L /\ 0 < pl_step L /\ positive_map L.

(* a panel whose Gaussian response is defined *)
Definition panel_ok (P : panel) : Prop := 0 < pn_sx P /\ 0 < pn_sy P /\ 0 < pn_scale P /\ 0 < pn_m2 P.

(* the smoothness of a sigmoid response is positive *)
Definition resp_ok (resp : response) : Prop := match resp with Gauss => True | Sig s => 0 < s end.

(* two panels, two layers that differ at most in the budget scales *)
Definition same_but_scale (P P' : panel) : Prop := exists s, P' = with_scale P s.
Definition same_layer (l l' : layer) : Prop :=
  match l, l' with
  | LPass L, LPass L' => L = L'
  | LDet D, LDet D' => exists ps, D' = with_panels D ps /\ Forall2 same_but_scale (dl_panels D) ps
  | _, _ => False
  end.

(* a panel that a budget can be spent on *)
Definition affordable (P : panel) : Prop := 0 < pn_m2 P /\ 0 < pn_sx P /\ 0 < pn_sy P.
(* the panels of all detector layers, in the order of the layers *)
Definition all_panels (ls : list layer) : list panel := flat_map dl_panels (detectors ls).

(* x' is the point of [lo, hi] closest to x *)
Definition nearest (lo hi x x' : R) : Prop := lo <= x' <= hi /\ forall w, lo <= w <= hi -> Rabs (x' - x) <= Rabs (w - x).
(* panel P' is P moved into detector layer D with margin eps: nothing moves more than needed, nothing else changes *)
Definition conformed (D : detlayer) (eps : R) (P P' : panel) : Prop :=
  nearest 0 (dl_lx D) (pn_x P) (pn_x P') /\ nearest 0 (dl_ly D) (pn_y P) (pn_y P')
  /\ nearest (dl_z D - dl_size D + eps) (dl_z D - eps) (pn_z P) (pn_z P')
  /\ nearest (dl_lx D / 20) (10 * dl_lx D) (pn_sx P) (pn_sx P') /\ nearest (dl_ly D / 20) (10 * dl_ly D) (pn_sy P) (pn_sy P')
  /\ pn_resp P' = pn_resp P /\ pn_res P' = pn_res P /\ pn_eff P' = pn_eff P /\ pn_m2 P' = pn_m2 P
  /\ pn_scale P' = pn_scale P /\ pn_real P' = pn_real P.

(* a stack of nz passive layers of nx by ny voxels of side s, the bottom of the lowest one at m*s *)
Definition stack (ls : list layer) (s : R) (m : Z) (nx ny nz : nat) : Prop :=
  0 < s /\ List.length (passives ls) = nz /\ (0 < nz)%nat
  /\ forall k L, nth_error (rev (passives ls)) k = Some L ->
       pl_size L = s /\ pl_lx L = INR nx * s /\ pl_ly L = INR ny * s /\ pl_z L - pl_size L = IZR (m + Z.of_nat k) * s.

(* point p lies in voxel (i, j, k): lower faces included, upper faces not *)
Definition in_voxel (s : R) (m : Z) (ijk : Z * Z * Z) (p : R * R * R) : Prop :=
  let '(i, j, k) := ijk in let '(x, y, z) := p in
  IZR i * s <= x < (IZR i + 1) * s /\ IZR j * s <= y < (IZR j + 1) * s /\ IZR (m + k) * s <= z < (IZR (m + k) + 1) * s.
(* point p lies in the passive volume or on one of its faces *)
Definition in_box (s : R) (m : Z) (nx ny nz : nat) (p : R * R * R) : Prop :=
  let '(x, y, z) := p in 0 <= x <= INR nx * s /\ 0 <= y <= INR ny * s /\ IZR m * s <= z <= IZR (m + Z.of_nat nz) * s.
