(* Directions of flight.  theta is measured from the negative z axis, phi anticlockwise from x in the xy plane. *)
From Verif Require Import Model.MuonBatch.
Open Scope R_scope.

(* unit vector of flight *)
Definition dir (th ph : R) : R * R * R := (sin th * cos ph, sin th * sin ph, - cos th).

(* One muon of a batch together with what is asked of it by a call of an angular scattering:
   selected or not by the mask, and the two angular changes. *)
Record turn_case := TC {
  c_sel : bool;
  c_x : xr; c_y : xr; c_z : xr; c_p : xr;
  c_th : R; c_ph : R; c_da : R; c_db : R }.
Definition c_mu (c : turn_case) : muon := Mu (c_x c) (c_y c) (c_z c) (c_p c) (Fin (c_th c)) (Fin (c_ph c)).
(* unfolded angles after the change *)
Definition c_th' (c : turn_case) : R := if c_sel c then c_th c + c_da c else c_th c.
Definition c_ph' (c : turn_case) : R := if c_sel c then c_ph c + c_db c else c_ph c.
(* the muon still flies downwards *)
Definition c_down (c : turn_case) : bool :=
  if c_sel c then Rltb 0 (cos (c_th' c)) else Rltb (c_th c) (PI / 2).
Definition c_mask (cs : list turn_case) : list bool := map c_sel cs.
Definition c_arg_a (cs : list turn_case) : arg := Vec (map (fun c => Fin (c_da c)) (filter c_sel cs)).
Definition c_arg_b (cs : list turn_case) : arg := Vec (map (fun c => Fin (c_db c)) (filter c_sel cs)).

(* muon u is at the place of case c with the same momentum *)
Definition same_place (c : turn_case) (u : muon) : Prop :=
  mx u = c_x c /\ my u = c_y c /\ mz u = c_z c /\ mp u = c_p c.

(* projected angles of a direction: tan theta_x = dx/dz, tan theta_y = dy/dz along the flight *)
Definition proj_x (th ph : R) : R := atan (tan th * cos ph).
Definition proj_y (th ph : R) : R := atan (tan th * sin ph).

(* an angle strictly between -pi/2 and pi/2 *)
Definition open_half (t : R) : Prop := - (PI / 2) < t < PI / 2.

Definition in_half (t : R) : bool := Rltb (- (PI / 2)) t && Rltb t (PI / 2).
(* new projected angles of a case *)
Definition n_tx (c : turn_case) : R := proj_x (c_th c) (c_ph c) + c_da c.
Definition n_ty (c : turn_case) : R := proj_y (c_th c) (c_ph c) + c_db c.
(* kept: still strictly downwards, and not exactly vertical when selected *)
Definition kept_xy (c : turn_case) : bool :=
  negb (c_sel c) || (in_half (n_tx c) && in_half (n_ty c) && negb (Reqb (n_tx c) 0 && Reqb (n_ty c) 0)).


(* ---- straight flight ---- *)
(* One muon of a batch, with whether a propagation selects it and by how much it is to move. *)
Record go_case := GC {
  g_sel : bool; g_x : R; g_y : R; g_z : R; g_p : xr; g_th : R; g_ph : R; g_d : R }.
Definition g_mu (c : go_case) : muon :=
  Mu (Fin (g_x c)) (Fin (g_y c)) (Fin (g_z c)) (g_p c) (Fin (g_th c)) (Fin (g_ph c)).
(* the muon at signed distance s along its line of flight; momentum and direction unchanged *)
Definition along (c : go_case) (s : R) : muon :=
  let '(dx, dy, dz) := dir (g_th c) (g_ph c) in
  Mu (Fin (g_x c + s * dx)) (Fin (g_y c + s * dy)) (Fin (g_z c + s * dz)) (g_p c) (Fin (g_th c)) (Fin (g_ph c)).
Definition g_arg (cs : list go_case) : arg := Vec (map (fun c => Fin (g_d c)) (filter g_sel cs)).
Definition with_d (c : go_case) (d : R) : go_case :=
  GC (g_sel c) (g_x c) (g_y c) (g_z c) (g_p c) (g_th c) (g_ph c) d.
