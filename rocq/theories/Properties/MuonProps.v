(* Properties C01-C09: muon batches. *)
From Coq Require Import Permutation.
From Verif Require Import Base.Trig Model.MuonBatch Model.MuonHeap.
From Verif Require Import Spec.ListSpec Spec.MuonSpec Spec.AngleSpec Spec.TileSpec Spec.HeapSpec.
From Verif Require Import Proofs.MuonBatchP Proofs.MuonConserve Proofs.MuonAngles Proofs.MuonMoves Proofs.MuonHeapP.
Open Scope R_scope.
Open Scope string_scope.
Open Scope list_scope.

(* C01. Any history of commands, issued to the batch as masked tensor operations, leaves the batch in the state
   of separate muons that each received the commands on their own; hits come back muon by muon, in recording order,
   and stacking them never fails. *)
Theorem C01_batch_is_independent_muons :
  forall (H : Type) (rows : list row5) (z : xr) (cmds : list (cmd H)) (s : sstate H),
  spec_run cmds (spec_init (map (start_at z) rows)) = Some s ->
  exists b, (b0 <- new_batch rows (Sc z) ;; exec_all (map call cmds) b0) = Ok b
    /\ b_muons b = map o_mu (s_live s)
    /\ b_removed b = match s_gone s with [] => None | g => Some g end
    /\ b_hist b = s_hist s
    /\ forall low high,
        match get_hits low high b with
        | Err e => e = ValueError /\ s_keys s = []
        | Ok d => s_keys s <> [] /\
            forall p v, (In (p, v) (s_keys s) -> assoc2 p v d = Some (map (hits_for p v) (asked low high (s_live s))))
                     /\ (~ In (p, v) (s_keys s) -> assoc2 p v d = None)
        end.
Proof. exact @batch_refinement. Qed.
Print Assumptions C01_batch_is_independent_muons.

(* two muons hit two panels; the first is removed in between; only the second muon's hits are left, both of them *)
Example C01_case :
  let row (k : R) : row5 := (Fin k, Fin 0, Fin 5, Fin 0, Fin 0) in
  let us := map (start_at (Fin 1)) [row 1; row 2] in
  spec_run (H := nat)
    [CRecord [("reco_xy", [10; 20]%nat)] "above"; CKeep [false; true]; CMove (Some (SEach [Fin 3])) None None (Some [true]);
     CRecord [("reco_xy", [21]%nat)] "above"]
    (spec_init us)
  = Some (SState [Obj (Mu (xadd (Fin 2) (Fin 3)) (Fin 0) (Fin 1) (Fin 5) (Fin 0) (Fin 0))
                      [("above", "reco_xy", 20%nat); ("above", "reco_xy", 21%nat)]]
                 [Mu (Fin 1) (Fin 0) (Fin 1) (Fin 5) (Fin 0) (Fin 0)]
                 [("above", "reco_xy"); ("above", "reco_xy")] []).
Proof. reflexivity. Qed.

(* C02. Whatever operations are executed, with arguments of any shape, as long as no exception is raised:
   nothing is lost or duplicated.  Muons are followed by their momentum, which no operation changes
   (so with pairwise different momenta this follows each muon). *)
Theorem C02_muons_conserved :
  forall (H : Type) (ops : list (op H)) (b b' : batch H),
  exec_all ops b = Ok b' ->
  Permutation (map mp (b_muons b') ++ map mp (removed_of b')) (map mp (b_muons b) ++ map mp (removed_of b))
  /\ (List.length (b_muons b') + List.length (removed_of b') = List.length (b_muons b) + List.length (removed_of b))%nat
  /\ subseq (map mp (b_muons b')) (map mp (b_muons b))
  /\ exists extra, removed_of b' = removed_of b ++ extra.
Proof.
  exact (fun H ops b b' E => let C := exec_all_conserved ops b b' E in
    conj (proj1 C) (conj (conserved_count b b' C) (proj2 C))).
Qed.
Print Assumptions C02_muons_conserved.

(* C02. One filtering records exactly the rows it takes out, as they are at that moment. *)
Theorem C02_filter_records_removed :
  forall (H : Type) (keep : list bool) (b b' : batch H),
  filter_muons keep b = Ok b' ->
  (List.length (b_muons b) <= count_true keep /\ b' = b)%nat \/
  (List.length keep = List.length (b_muons b)
   /\ b_muons b' = select keep (b_muons b)
   /\ removed_of b' = removed_of b ++ select (negm keep) (b_muons b)).
Proof. exact @filter_effect. Qed.
Print Assumptions C02_filter_records_removed.

Example C02_case :
  let u (k : R) := Mu (Fin 0) (Fin 0) (Fin 1) (Fin k) (Fin 0) (Fin 0) in
  exec_all (H := nat) [OFilter [true; false; true]; OFilter [false; true]] (Batch [u 1; u 2; u 3] None [] [])
  = Ok (Batch [u 3] (Some [u 2; u 1]) [] []).
Proof. reflexivity. Qed.

(* C03, C04. Angular scattering with any changes, on any selection of muons: the muons left are exactly those whose
   changed direction still points strictly down (those not selected keep theirs); angles of the scattered ones are
   folded back into range and describe the changed direction; position and momentum are untouched; the others are
   recorded as removed. *)
Theorem C03_C04_scattering_folds_and_removes :
  forall (H : Type) (cs : list turn_case) removed (hits : hits_dict H) hist,
  aligned (List.length cs) hits ->
  exists b', scatter_dtheta_dphi (Some (c_arg_a cs)) (Some (c_arg_b cs)) (Some (c_mask cs))
               (Batch (map c_mu cs) removed hits hist) = Ok b' /\
  Forall2 (fun c u =>
      same_place c u /\
      exists t p, mth u = Fin t /\ mph u = Fin p
        /\ dir t p = dir (c_th' c) (c_ph' c)
        /\ (c_sel c = true -> 0 <= t < PI / 2 /\ 0 <= p < 2 * PI)
        /\ (c_sel c = false -> t = c_th c /\ p = c_ph c))
    (filter c_down cs) (b_muons b')
  /\ (List.length (removed_of b') = List.length (match removed with None => [] | Some r => r end)
                            + List.length (filter (fun c => negb (c_down c)) cs))%nat.
Proof. exact @scatter_dtheta_dphi_correct. Qed.
Print Assumptions C03_C04_scattering_folds_and_removes.

(* a muon turned past vertical (kept, folded) and one turned by more than a right angle (removed) *)
Example C03_case :
  map c_down [TC true (Fin 0) (Fin 0) (Fin 1) (Fin 5) 0 0 (- (1 / 2)) 0; TC true (Fin 0) (Fin 0) (Fin 1) (Fin 5) 0 0 PI 0]
  = [true; false].
Proof.
  unfold c_down, c_th'; simpl. f_equal; [|f_equal].
  - apply Rltb_true. rewrite Rplus_0_l. apply cos_gt_0; pose proof PI2_1; lra.
  - apply Rltb_false. rewrite Rplus_0_l, cos_PI. lra.
Qed.

(* C05. propagate_dz / propagate_d move the selected muons along their line of flight and nothing else. *)
Theorem C05_propagate_dz :
  forall (H : Type) cs r (h : hits_dict H) hi,
  (forall c, In c cs -> g_sel c = true -> cos (g_th c) <> 0) ->
  propagate_dz (g_arg cs) (Some (map g_sel cs)) (Batch (map g_mu cs) r h hi)
  = Ok (Batch (map (fun c => if g_sel c then along c (g_d c / cos (g_th c)) else g_mu c) cs) r h hi)
  /\ forall c, cos (g_th c) <> 0 -> mz (along c (g_d c / cos (g_th c))) = Fin (g_z c - g_d c).
Proof. exact (fun H cs r h hi Hc => conj (propagate_dz_cases cs r h hi Hc) along_dz_z). Qed.
Print Assumptions C05_propagate_dz.

Theorem C05_propagate_d :
  forall (H : Type) cs r (h : hits_dict H) hi,
  propagate_d (g_arg cs) (Some (map g_sel cs)) (Batch (map g_mu cs) r h hi)
  = Ok (Batch (map (fun c => if g_sel c then along c (g_d c) else g_mu c) cs) r h hi).
Proof. exact @propagate_d_cases. Qed.
Print Assumptions C05_propagate_d.

(* two successive propagations are one by the sum *)
Theorem C05_propagate_dz_additive :
  forall (H : Type) (cs : list (go_case * R)) r (h : hits_dict H) hi,
  (forall c e, In (c, e) cs -> g_sel c = true -> cos (g_th c) <> 0) ->
  (b1 <- propagate_dz (g_arg (map fst cs)) (Some (map g_sel (map fst cs))) (Batch (map g_mu (map fst cs)) r h hi) ;;
   propagate_dz (Vec (map (fun q => Fin (snd q)) (filter (fun q => g_sel (fst q)) cs))) (Some (map g_sel (map fst cs))) b1)
  = propagate_dz (g_arg (map (fun q => with_d (fst q) (g_d (fst q) + snd q)) cs)) (Some (map g_sel (map fst cs)))
      (Batch (map g_mu (map fst cs)) r h hi).
Proof. exact @propagate_dz_twice. Qed.
Print Assumptions C05_propagate_dz_additive.

Theorem C05_propagate_d_additive :
  forall (H : Type) (cs : list (go_case * R)) r (h : hits_dict H) hi,
  (b1 <- propagate_d (g_arg (map fst cs)) (Some (map g_sel (map fst cs))) (Batch (map g_mu (map fst cs)) r h hi) ;;
   propagate_d (Vec (map (fun q => Fin (snd q)) (filter (fun q => g_sel (fst q)) cs))) (Some (map g_sel (map fst cs))) b1)
  = propagate_d (g_arg (map (fun q => with_d (fst q) (g_d (fst q) + snd q)) cs)) (Some (map g_sel (map fst cs)))
      (Batch (map g_mu (map fst cs)) r h hi).
Proof. exact @propagate_d_twice. Qed.
Print Assumptions C05_propagate_d_additive.

Theorem C05_propagate_d_is_dz :
  forall (H : Type) cs r (h : hits_dict H) hi,
  (forall c, In c cs -> g_sel c = true -> cos (g_th c) <> 0) ->
  propagate_d (g_arg cs) (Some (map g_sel cs)) (Batch (map g_mu cs) r h hi)
  = propagate_dz (g_arg (map (fun c => with_d c (g_d c * cos (g_th c))) cs)) (Some (map g_sel cs))
      (Batch (map g_mu cs) r h hi).
Proof. exact @propagate_d_is_dz. Qed.
Print Assumptions C05_propagate_d_is_dz.

Example C05_case : cos 0 <> 0 /\ along (GC true 1 2 3 (Fin 5) 0 0 (1 / 2)) (1 / 2)
  = Mu (Fin (1 + 1 / 2 * (sin 0 * cos 0))) (Fin (2 + 1 / 2 * (sin 0 * sin 0))) (Fin (3 + 1 / 2 * - cos 0)) (Fin 5) (Fin 0) (Fin 0).
Proof. split; [rewrite cos_0; lra | reflexivity]. Qed.

(* a vector of distances or of angles that is neither a single number nor one number for each selected muon is
   refused, also when only one muon is selected *)
Theorem C05_wrong_size :
  forall (H : Type) (m : list bool) (vs : list xr) (other : option arg) (b : batch H),
  List.length m = List.length (b_muons b) ->
  List.length vs <> 1%nat -> List.length vs <> count_true m ->
  propagate_d (Vec vs) (Some m) b = Err RuntimeError
  /\ propagate_dz (Vec vs) (Some m) b = Err RuntimeError
  /\ scatter_dtheta_xy (Some (Vec vs)) other (Some m) b = Err RuntimeError.
Proof.
  intros H m vs o b L N1 N. destruct (propagate_bad m vs b L N1 N) as [E1 E2].
  split; [exact E1|split; [exact E2|apply turn_xy_bad; assumption]].
Qed.
Print Assumptions C05_wrong_size.

Example C05_wrong_size_case :
  let b := Batch (H := unit) [Mu (Fin 0) (Fin 0) (Fin 1) (Fin 5) (Fin 0) (Fin 0); Mu (Fin 0) (Fin 0) (Fin 1) (Fin 5) (Fin 0) (Fin 0)] None [] [] in
  propagate_d (Vec [Fin 1; Fin 2]) (Some [false; true]) b = Err RuntimeError
  /\ exists b', propagate_d (Vec [Fin 1]) (Some [false; true]) b = Ok b'.
Proof. split; [apply propagate_bad; cbn; lia | eexists; reflexivity]. Qed.

(* C06. (theta, phi) -> (theta_x, theta_y) -> (theta, phi), all four quadrants and the axes included *)
Theorem C06_theta_phi_round_trip :
  forall th ph, 0 < th < PI / 2 -> 0 <= ph < 2 * PI ->
  theta_x_from_theta_phi1 (Fin th) (Fin ph) = Fin (proj_x th ph)
  /\ theta_y_from_theta_phi1 (Fin th) (Fin ph) = Fin (proj_y th ph)
  /\ theta_from_theta_xy1 (Fin (proj_x th ph)) (Fin (proj_y th ph)) = Fin th
  /\ phi_from_theta_xy1 (Fin (proj_x th ph)) (Fin (proj_y th ph)) = Fin ph.
Proof.
  exact (fun th ph Ht Hp =>
    conj (theta_x_fin th ph (conj (Rlt_le _ _ (proj1 Ht)) (proj2 Ht)))
   (conj (theta_y_fin th ph (conj (Rlt_le _ _ (proj1 Ht)) (proj2 Ht))) (round_trip th ph Ht Hp))).
Qed.
Print Assumptions C06_theta_phi_round_trip.

(* C06. (theta_x, theta_y) -> (theta, phi) -> (theta_x, theta_y) *)
Theorem C06_theta_xy_round_trip :
  forall tx ty, open_half tx -> open_half ty -> ~ (tx = 0 /\ ty = 0) ->
  exists th ph, theta_from_theta_xy1 (Fin tx) (Fin ty) = Fin th /\ phi_from_theta_xy1 (Fin tx) (Fin ty) = Fin ph
  /\ 0 <= th < PI / 2 /\ 0 <= ph < 2 * PI
  /\ theta_x_from_theta_phi1 (Fin th) (Fin ph) = Fin tx
  /\ theta_y_from_theta_phi1 (Fin th) (Fin ph) = Fin ty.
Proof.
  exact (fun tx ty Hx Hy Hn =>
    let th := atan (sqrt (tan tx * tan tx + tan ty * tan ty)) in
    let Ht := theta_of_pos tx ty Hx Hy in
    let P := proj_back tx ty Hx Hy Hn in
    ex_intro _ th (ex_intro _ (phi_of tx ty)
      (conj (theta_from_fin tx ty Hx Hy) (conj (phi_from_fin tx ty Hx Hy Hn)
      (conj Ht (conj (phi_of_range tx ty Hx Hy)
      (conj (eq_trans (theta_x_fin th (phi_of tx ty) Ht) (f_equal Fin (proj1 P)))
            (eq_trans (theta_y_fin th (phi_of tx ty) Ht) (f_equal Fin (proj2 P)))))))))).
Qed.
Print Assumptions C06_theta_xy_round_trip.

(* C06. dtheta, dtheta_x and dtheta_y are, muon by muon, the distance between the angle of the muon and the reference that goes with it (here c_da),
   and a reference tensor that fits neither the muons nor a single muon is refused *)
Theorem C06_distance :
  forall (H : Type) (cs : list turn_case) removed (hits : hits_dict H) hist,
  (forall c, In c cs -> 0 <= c_th c < PI / 2) ->
  let b := Batch (map c_mu cs) removed hits hist in let ref := map (fun c => Fin (c_da c)) cs in
  dtheta_to mth ref b = Ok (map (fun c => Fin (Rabs (c_th c - c_da c))) cs)
  /\ dtheta_to mu_theta_x ref b = Ok (map (fun c => Fin (Rabs (proj_x (c_th c) (c_ph c) - c_da c))) cs)
  /\ dtheta_to mu_theta_y ref b = Ok (map (fun c => Fin (Rabs (proj_y (c_th c) (c_ph c) - c_da c))) cs)
  /\ forall get bad, List.length bad <> List.length cs -> List.length bad <> 1%nat -> List.length cs <> 1%nat -> dtheta_to get bad b = Err RuntimeError.
Proof.
  intros H cs removed hits hist Hc b ref.
  assert (G : forall get f, (forall c, In c cs -> get (c_mu c) = Fin (f c)) -> dtheta_to get ref b = Ok (map (fun c => Fin (Rabs (f c - c_da c))) cs)).
  { intros get f Hg. unfold dtheta_to, bcast, ref, b. cbn [b_muons]. rewrite !map_length, Nat.eqb_refl. cbn [bind]. f_equal.
    clear Hc b ref. induction cs as [|c cs IH]; [reflexivity|]. cbn [map map2]. rewrite (Hg c) by (left; reflexivity). f_equal.
    apply IH. intros c' Hin. apply Hg. right. exact Hin. }
  split; [exact (G mth c_th (fun c _ => eq_refl))|]. split; [apply G; intros c Hin; exact (theta_x_fin _ _ (Hc c Hin))|].
  split; [apply G; intros c Hin; exact (theta_y_fin _ _ (Hc c Hin))|].
  intros get bad N1 N2 N3. unfold dtheta_to, bcast, b. cbn [b_muons]. rewrite !map_length, (proj2 (Nat.eqb_neq _ _) N1).
  destruct bad as [|v [|w bad]], cs as [|c [|d cs]]; cbn in *; try lia; reflexivity.
Qed.
Print Assumptions C06_distance.

Example C06_case : 0 < PI / 4 < PI / 2 /\ 0 <= 3 * (PI / 2) < 2 * PI /\ open_half (- (PI / 4)).
Proof. pose proof PI_pos. unfold open_half. lra. Qed.

(* C07. For directions with theta < pi/2: scatter_dtheta_xy keeps a selected muon exactly when the new projected
   angles are strictly inside (-pi/2, pi/2) and are not both zero, and then the new direction has these projected angles.
   The "not both zero" is not in the property: see C07_vertical_muon_refuted. *)
Theorem C07_scatter_dtheta_xy :
  forall (H : Type) (cs : list turn_case) removed (hits : hits_dict H) hist,
  (forall c, In c cs -> 0 <= c_th c < PI / 2) -> aligned (List.length cs) hits ->
  exists b', scatter_dtheta_xy (Some (c_arg_a cs)) (Some (c_arg_b cs)) (Some (c_mask cs))
               (Batch (map c_mu cs) removed hits hist) = Ok b' /\
  Forall2 (fun c u =>
      same_place c u /\
      exists t p, mth u = Fin t /\ mph u = Fin p
        /\ (c_sel c = true -> 0 <= t < PI / 2 /\ 0 <= p < 2 * PI
                              /\ proj_x t p = n_tx c /\ proj_y t p = n_ty c)
        /\ (c_sel c = false -> t = c_th c /\ p = c_ph c))
    (filter kept_xy cs) (b_muons b').
Proof. exact @scatter_dtheta_xy_correct. Qed.
Print Assumptions C07_scatter_dtheta_xy.

(* C07 as stated is false: an exactly vertical muon that is not deflected at all (both changes 0) is thrown away,
   because phi = arctan(0/0) = NaN. *)
Theorem C07_vertical_muon_refuted :
  exists c : turn_case,
    c_sel c = true /\ 0 <= c_th c < PI / 2 /\ open_half (n_tx c) /\ open_half (n_ty c)
    /\ scatter_dtheta_xy (H := nat) (Some (c_arg_a [c])) (Some (c_arg_b [c])) (Some (c_mask [c])) (Batch [c_mu c] None [] [])
       = Ok (Batch [] (Some [Mu (c_x c) (c_y c) (c_z c) (c_p c) (Fin 0) NaN]) [] []).
Proof. exact vertical_lost. Qed.
Print Assumptions C07_vertical_muon_refuted.

(* C08. In a grid of half-open boxes given by its edges, the number of boxes selecting a muon is 1 inside the
   outer box (edges included on the low side) and 0 outside; positions may be anything, infinite or NaN too. *)
Theorem C08_xy_masks_tile :
  forall (ex ey : list xr) (d : xr) (u : muon),
  increasing ex -> increasing ey -> (2 <= List.length ex)%nat -> (2 <= List.length ey)%nat ->
  count_true (map (fun cell => in_xy (Some (fst (fst cell), fst (snd cell))) (Some (snd (fst cell), snd (snd cell))) u)
                  (grid_cells ex ey))
  = if in_xy (Some (hd d ex, hd d ey)) (Some (last ex d, last ey d)) u then 1%nat else 0%nat.
Proof. exact tiling. Qed.
Print Assumptions C08_xy_masks_tile.

(* get_xy_mask is that test on every muon, in order *)
Theorem C08_mask_per_muon :
  forall (H : Type) low high (b : batch H), get_xy_mask low high b = map (in_box low high) (b_muons b).
Proof. exact (fun H low high b => map_ext _ _ (in_xy_box low high) (b_muons b)). Qed.
Print Assumptions C08_mask_per_muon.

Example C08_case : increasing [NInf; Fin 0; Fin 1; PInf] /\ (2 <= List.length [NInf; Fin 0; Fin 1; PInf])%nat.
Proof. split; [|simpl; lia]. simpl. split; [reflexivity|]. split; [apply Rltb_true; lra|]. split; [reflexivity|exact I]. Qed.

(* C09. A copy has the same muons, no hits, no removed muons. *)
Theorem C09_copy_faithful :
  forall (H : Type) (b : batch H), copy b = Ok (Batch (b_muons b) None [] []).
Proof. exact copy_spec. Qed.
Print Assumptions C09_copy_faithful.

(* C09. In any program that creates, copies and operates on batches, the storage-level execution gives every batch
   the value it would have if batches were separate values: an operation on one never shows in another. *)
Theorem C09_batches_isolated :
  forall (H : Type) (ops : list (wop H)),
  match wrun ops empty_world with
  | Ok w' => sep_run ops [] = Ok (view w')
  | Err e => sep_run ops [] = Err e
  end.
Proof. exact wrun_empty. Qed.
Print Assumptions C09_batches_isolated.

(* a batch, its copy, and a displacement of the original: the copy stays *)
Example C09_case :
  let row : row5 := (Fin 1, Fin 0, Fin 5, Fin 0, Fin 0) in
  exists w, wrun (H := nat) [WNew [row] (Sc (Fin 1)); WCopy 0; WOp 0 (OScatterXYZ (Some (Sc (Fin 2))) None None None)] empty_world = Ok w
    /\ map (fun b => map mx (b_muons b)) (view w) = [[xadd (Fin 1) (Fin 2)]; [Fin 1]].
Proof. eexists; split; reflexivity. Qed.
