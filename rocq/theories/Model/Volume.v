(* Model of tomopt/volume/layer.py (PanelDetectorLayer) and tomopt/volume/volume.py (Volume), for panel detectors.
   np.argsort is an argument: which of several equal values comes first is not specified by numpy. *)
From Coq Require Import ZArith.
From Verif Require Export Model.Layer Model.Panel.
Open Scope R_scope.
Open Scope string_scope.
Open Scope list_scope.

(* layer.py:487-507  attributes of a PanelDetectorLayer; _n_costs is the number of panels *)
Record detlayer := Det {
  dl_pos : string; dl_lx : R; dl_ly : R; dl_z : R; dl_size : R; dl_panels : list panel }.
Definition with_panels (D : detlayer) (ps : list panel) : detlayer :=
  Det (dl_pos D) (dl_lx D) (dl_ly D) (dl_z D) (dl_size D) ps.

Inductive layer := LPass (L : passive) | LDet (D : detlayer).

(* volume.py:49-66  attributes of a Volume; v_weights is None when there is no budget *)
Record volume := Volume {
  v_layers : list layer;
  v_budget : option R;
  v_weights : list R;              (* budget_weights *)
  v_target : option R }.           (* _target *)

Section Sorting.
Variable argsort : list R -> list nat.      (* np.argsort *)

(* layer.py:529-535  get_panel_zorder: argsort reversed *)
Definition panel_zorder (D : detlayer) : list nat := rev (argsort (map pn_z (dl_panels D))).

(* layer.py:573-586  forward.  rng k i: the draws for muon i at the k-th panel visited *)
Fixpoint visit_panels (D : detlayer) (tr : bool) (rng : nat -> nat -> R * R) (order : list nat) (k : nat) (b : batch hrow)
  : res (batch hrow) :=
  match order with
  | [] => Ok b
  | i :: order =>
      match nth_error (dl_panels D) i with
      | None => Err IndexError
      | Some P =>
          b <- propagate_dz (Vec (map (fun u => xsub (mz u) (Fin (pn_z P))) (b_muons b))) None b ;;
          hits <- panel_hits P tr (rng k) (b_muons b) ;;
          visit_panels D tr rng order (S k) (append_hits hits (dl_pos D) b)
      end
  end.
Definition det_forward (D : detlayer) (tr : bool) (rng : nat -> nat -> R * R) (b : batch hrow) : res (batch hrow) :=
  b <- visit_panels D tr rng (panel_zorder D) 0 b ;;
  propagate_dz (Vec (map (fun u => xsub (mz u) (Fin (dl_z D - dl_size D))) (b_muons b))) None b.

(* layer.py:588-600  get_cost *)
Definition det_cost (D : detlayer) : R := Rsum (map panel_cost (dl_panels D)).

Fixpoint set_nth {A} (l : list A) (i : nat) (f : A -> A) : list A :=
  match l, i with
  | [], _ => []
  | a :: l, O => f a :: l
  | a :: l, S i => a :: set_nth l i f
  end.

(* layer.py:602-617  assign_budget: budget[i] to the i-th panel in z order *)
Fixpoint give_budgets (order : list nat) (budget : list R) (ps : list panel) : res (list panel) :=
  match order with
  | [] => Ok ps
  | j :: order =>
      match budget with
      | [] => Err IndexError
      | c :: budget => give_budgets order budget (set_nth ps j (panel_assign_budget c))
      end
  end.
Definition det_assign_budget (budget : list R) (D : detlayer) : res detlayer :=
  ps <- give_budgets (panel_zorder D) budget (dl_panels D) ;; Ok (with_panels D ps).

(* layer.py:548-571  conform_detector for panels; eps i: the draw for the i-th panel *)
Definition conform_detector (eps : nat -> R) (D : detlayer) : detlayer :=
  with_panels D
    (map (fun iP : nat * panel =>
            clamp_params (0, 0, dl_z D - dl_size D) (dl_lx D, dl_ly D, dl_z D) (eps (fst iP)) (snd iP))
         (combine (seq 0 (List.length (dl_panels D))) (dl_panels D))).

(* torch softmax of a vector *)
Definition softmax (w : list R) : list R := map (fun x => exp x / Rsum (map exp w)) w.

Definition n_costs (D : detlayer) : nat := List.length (dl_panels D).

(* volume.py:169-184  assign_budget: slices of budget * softmax(weights) to the detector layers, in order.
   _n_layer_costs (volume.py:336) is the list of the numbers of panels; it does not change. *)
Fixpoint give_layers (shares : list R) (ls : list layer) : res (list layer) :=
  match ls with
  | [] => Ok []
  | LPass L :: ls => rest <- give_layers shares ls ;; Ok (LPass L :: rest)
  | LDet D :: ls =>
      let n := n_costs D in
      D' <- det_assign_budget (firstn n shares) D ;;
      rest <- give_layers (skipn n shares) ls ;;
      Ok (LDet D' :: rest)
  end.
Definition assign_budget (V : volume) : res volume :=
  match v_budget V with
  | None => Ok V
  | Some c =>
      ls <- give_layers (map (fun s => c * s) (softmax (v_weights V))) (v_layers V) ;;
      Ok (Volume ls (v_budget V) (v_weights V) (v_target V))
  end.

Definition detectors (ls : list layer) : list detlayer :=
  flat_map (fun l => match l with LDet D => [D] | LPass _ => [] end) ls.
Definition passives (ls : list layer) : list passive :=
  flat_map (fun l => match l with LPass L => [L] | LDet _ => [] end) ls.

(* volume.py:320-338  _configure_budget: one zero weight per panel, then assign_budget *)
Definition configure_budget (V : volume) : res volume :=
  let n := fold_right Nat.add 0%nat (map n_costs (detectors (v_layers V))) in
  assign_budget (Volume (v_layers V) (v_budget V) (repeat 0 n) (v_target V)).

(* volume.py:348-362  _check_passives *)
Definition same_passive (L L' : passive) : bool :=
  Reqb (pl_lx L) (pl_lx L') && Reqb (pl_ly L) (pl_ly L') && Reqb (pl_size L) (pl_size L').
Definition check_passives (ls : list layer) : res unit :=
  match passives ls with
  | [] => Ok tt
  | L :: rest => if forallb (same_passive L) rest then Ok tt else Err ValueError
  end.

(* volume.py:340-346  _get_device, with all layers on one device: layers[0] raises when there are none *)
Definition get_device (ls : list layer) : res unit := match ls with [] => Err IndexError | _ => Ok tt end.

(* volume.py:49-66  __init__ *)
Definition new_volume (ls : list layer) (budget : option R) : res volume :=
  _ <- get_device ls ;;
  _ <- check_passives ls ;;
  let V := Volume ls budget [] None in
  match budget with None => Ok V | Some _ => configure_budget V end.

(* volume.py:201-220  get_cost: the budget if there is one, else the sum over the detector layers *)
Definition volume_cost (V : volume) : R :=
  match v_budget V with
  | Some c => c
  | None => Rsum (map det_cost (detectors (v_layers V)))
  end.

(* oracles of one crossing of the volume: iteration bound and draws of each passive layer, draws of each detector layer *)
Record vol_rng := VRng {
  vr_fuel : nat -> nat;
  vr_pass : nat -> nat -> nat -> draw;
  vr_det : nat -> nat -> nat -> R * R }.

(* volume.py:186-199  forward: every layer in turn, with a snapshot after each.  None: a loop bound was reached *)
Fixpoint cross_layers (tr : bool) (o : vol_rng) (ls : list layer) (k : nat) (b : batch hrow) : option (res (batch hrow)) :=
  match ls with
  | [] => Some (Ok b)
  | l :: ls =>
      match (match l with
             | LPass L => layer_forward L (vr_pass o k) (vr_fuel o k) b
             | LDet D => Some (det_forward D tr (vr_det o k) b)
             end) with
      | None => None
      | Some (Err e) => Some (Err e)
      | Some (Ok b) => cross_layers tr o ls (S k) (snapshot_xyz b)
      end
  end.
Definition volume_forward (tr : bool) (o : vol_rng) (V : volume) (b : batch hrow) : option (res (volume * batch hrow)) :=
  match assign_budget V with
  | Err e => Some (Err e)
  | Ok V =>
      match cross_layers tr o (v_layers V) 0 b with
      | None => None
      | Some (Err e) => Some (Err e)
      | Some (Ok b) => Some (Ok (V, b))
      end
  end.
End Sorting.

(* volume.py:153-167  load_rad_length: target first, then every passive layer *)
Definition volume_load (f : R -> R * R -> R -> list (list R)) (target : option R) (V : volume) : volume :=
  Volume (map (fun l => match l with LPass L => LPass (load_rad_length f L) | LDet D => LDet D end) (v_layers V))
         (v_budget V) (v_weights V) target.

(* volume.py:373-380  passive_size; 364-371 lw: of the last passive layer.  IndexError without passive layers *)
Definition last_passive (ls : list layer) : res passive :=
  match rev (passives ls) with [] => Err IndexError | L :: _ => Ok L end.

(* volume.py:71-78  get_passive_z_range *)
Definition passive_z_range (ls : list layer) : res (R * R) :=
  L <- last_passive ls ;;
  match passives ls with
  | [] => Err IndexError
  | L0 :: _ => Ok (pl_z L - pl_size L, pl_z L0)
  end.

(* Python's round of a float to an integer: half to even *)
Definition round_half_even (x : R) : Z :=
  let f := Rfloor x in
  if Rltb (x - IZR f) (1 / 2) then f
  else if Rltb (1 / 2) (x - IZR f) then (f + 1)%Z
  else if Z.even f then f else (f + 1)%Z.

(* range(a, b) of integers *)
Definition zrange (a b : Z) : list Z := map (fun i => (a + Z.of_nat i)%Z) (seq 0 (Z.to_nat (b - a))).

(* volume.py:80-96  build_xyz_edges: mgrid flattened (x slowest, z fastest), times the voxel size *)
Definition build_xyz_edges (ls : list layer) : res (list (R * R * R)) :=
  L <- last_passive ls ;;
  zr <- passive_z_range ls ;;
  let s := pl_size L in
  Ok (flat_map (fun i => flat_map (fun j => map (fun k => (s * IZR i, s * IZR j, s * IZR k))
        (zrange (round_half_even (fst zr / s)) (round_half_even (snd zr / s))))
        (zrange 0 (round_half_even (pl_ly L / s))))
        (zrange 0 (round_half_even (pl_lx L / s)))).

(* volume.py:401-409  xyz_centres *)
Definition xyz_centres (ls : list layer) : res (list (R * R * R)) :=
  L <- last_passive ls ;;
  es <- build_xyz_edges ls ;;
  let h := pl_size L / 2 in
  Ok (map (fun e : R * R * R => let '(x, y, z) := e in (x + h, y + h, z + h)) es).

Fixpoint keep_some {A} (l : list (option A)) : list A :=
  match l with [] => [] | Some a :: l => a :: keep_some l | None :: l => keep_some l end.

(* volume.py:114-127  get_rad_cube: zxy, lowest layer first; torch.stack raises when the maps differ in shape *)
Definition shape2 {A} (m : list (list A)) : list nat := map (@List.length A) m.
Definition get_rad_cube (ls : list layer) : res (list (list (list R))) :=
  match rev (passives ls) with
  | [] => Err ValueError
  | vols =>
      match keep_some (map pl_rad vols) with
      | [] => Err AttributeError
      | m :: ms =>
          if forallb (fun m' => if list_eq_dec Nat.eq_dec (shape2 m') (shape2 m) then true else false) ms
          then Ok (m :: ms) else Err RuntimeError
      end
  end.

(* volume.py:129-151  lookup_passive_xyz_coords for an (N,3) tensor of finite positions.  The result is the indices and the
   argument tensor after the call, since xyz[:,2] is assigned in place. *)
Definition lookup_coords (ls : list layer) (pts : list (R * R * R)) : res (list (Z * Z * Z) * list (R * R * R)) :=
  L <- last_passive ls ;;
  zr <- passive_z_range ls ;;
  let out (p : R * R * R) := let '(x, y, z) := p in
     Rltb (pl_lx L) x || Rltb (pl_ly L) y || Rltb x 0 || Rltb y 0 || Rltb z (fst zr) || Rltb (snd zr) z in
  if existsb out pts then Err ValueError
  else
    let pts := map (fun p : R * R * R => let '(x, y, z) := p in (x, y, z - fst zr)) pts in
    let s := pl_size L in
    Ok (map (fun p : R * R * R => let '(x, y, z) := p in (Rfloor (x / s), Rfloor (y / s), Rfloor (z / s))) pts, pts).
