(* What crossing a passive layer is meant to do. *)
From Verif Require Import Model.Layer Spec.AngleSpec.
Open Scope R_scope.
Open Scope list_scope.

(* every recorded hit tensor restricted to the muons selected by keep *)
Definition keep_hits {H} (keep : list bool) (d : hits_dict H) : hits_dict H :=
  map (fun pv : string * list (string * list (list H)) =>
         (fst pv, map (fun vt : string * list (list H) => (fst vt, map (select keep) (snd vt))) (snd pv))) d.

(* b' holds some of the muons of b, in order, each with its own momentum and its own hits *)
Definition survivors {H} (b b' : batch H) : Prop :=
  exists keep, List.length keep = List.length (b_muons b)
    /\ map mp (b_muons b') = select keep (map mp (b_muons b))
    /\ b_hits b' = keep_hits keep (b_hits b).

(* a muon flying downwards, all of whose coordinates are numbers *)
Definition sound (u : muon) : Prop :=
  exists x y z p th ph, u = Mu (Fin x) (Fin y) (Fin z) (Fin p) (Fin th) (Fin ph) /\ 0 < p /\ 0 <= th < PI / 2.

(* the material map has one positive radiation length per voxel: nx by ny voxels that cover the layer *)
Definition map_fits (L : passive) (rad : list (list R)) : Prop :=
  exists nx ny : nat,
    0 < pl_size L /\ pl_lx L = INR nx * pl_size L /\ pl_ly L = INR ny * pl_size L
    /\ List.length rad = nx /\ (forall row, In row rad -> List.length row = ny)
    /\ (forall row x, In row rad -> In x row -> 0 < x).

(* inside the layer in x and y *)
Definition over_material (L : passive) (c : go_case) : Prop :=
  0 <= g_x c < pl_lx L /\ 0 <= g_y c < pl_ly L.

(* straight flight of one step, but not beyond the bottom of a layer that has material *)
Definition free_flight (L : passive) (c : go_case) : muon :=
  if g_sel c then
    along c (match pl_rad L with
             | Some _ => Rmin (pl_step L) ((g_z c - pl_bot L) / cos (g_th c))
             | None => pl_step L end)
  else g_mu c.

(* RMS width of the projected scattering angle (PDG review, passage of particles through matter),
   for n radiation lengths and momentum p in GeV *)
Definition pdg_width (n p : R) : R := 136 / 10000 / p * sqrt n * (1 + 38 / 1000 * ln n).

Definition dot3 (a b : R * R * R) : R :=
  let '(a1, a2, a3) := a in let '(b1, b2, b3) := b in a1 * b1 + a2 * b2 + a3 * b3.

(* a list in which some places are empty, without the empty places *)
Fixpoint somes {A} (l : list (option A)) : list A :=
  match l with [] => [] | Some a :: l => a :: somes l | None :: l => somes l end.
Definition is_some {A} (o : option A) : bool := match o with Some _ => true | None => false end.

(* every radiation length of the map is positive *)
Definition positive_map (L : passive) : Prop :=
  forall rad row x, pl_rad L = Some rad -> In row rad -> In x row -> 0 < x.

(* the material can be looked up: it fits the layer and the scattering formula is the PDG one *)
Definition material_ok (L : passive) : Prop :=
  match pl_rad L with None => True | Some rad => pl_model L = "pdg"%string /\ map_fits L rad end.

Definition downwards (c : go_case) : Prop := 0 <= g_th c < PI / 2.
