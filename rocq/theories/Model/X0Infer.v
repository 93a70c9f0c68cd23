(* Model of tomopt/inference/volume.py: AbsX0Inferrer, PanelX0Inferrer, DenseBlockClassifierFromX0s.
   A (muons, variables) tensor is a list of rows; a (z, x, y) tensor is a flat list, z slowest and y fastest. *)
From Coq Require Import ZArith.
From Verif Require Export Model.Volume Model.Scatter.
Open Scope R_scope.
Open Scope list_scope.

(* what an inferrer reads from one scatter batch *)
Record sview := SView {
  s_poca : tensor2; s_poca_unc : tensor2; s_tot : tensor2; s_tot_unc : tensor2;
  s_tin : tensor2; s_tin_unc : tensor2; s_tout : tensor2; s_tout_unc : tensor2;
  s_mom : list xr;
  s_above : list (list xr); s_below : list (list xr) }.   (* hit efficiencies (muons, hits) *)

(* The properties read from a ScatterBatch.  Uncertainties of a batch without muons: jacobian() returns None (utils.py:33-34)
   and torch.nan_to_num(None) raises TypeError (scattering.py:533).  Hit efficiencies: scattering.py:692-713. *)
Definition view_of (zr : R * R) (unc_of : svar -> tensor2 -> tensor2) (sb : scatters) (mus : list muon) : res sview :=
  match fst (read_all zr sb unc_of [(Poca, false); (Poca, true); (TotalScatter, false); (TotalScatter, true);
                                    (ThetaIn, false); (ThetaIn, true); (ThetaOut, false); (ThetaOut, true)] empty_memo) with
  | [p; pu; t; tu; i; iu; o; ou] =>
      match sb_tracks sb with
      | [] => Err TypeErr
      | _ => Ok (SView p pu t tu i iu o ou (map mp mus)
                       (map (fun m => firstn (sb_above sb) (mh_eff m)) (sb_hits sb))
                       (map (fun m => skipn (sb_above sb) (mh_eff m)) (sb_hits sb)))
      end
  | _ => Err AssertionError (* not reached *)
  end.

(* ---------- efficiency of a muon (volume.py:563-590) ---------- *)
(* torch.combinations: all choices of r elements, in lexicographic order *)
Fixpoint combinations {A} (r : nat) (l : list A) : list (list A) :=
  match r, l with
  | O, _ => [[]]
  | S _, [] => []
  | S r', a :: l' => map (cons a) (combinations r' l') ++ combinations r l'
  end.
Definition xprod (l : list xr) : xr := fold_right xmul (Fin 1) l.
(* one muon, one side.  No panel: combinations raises for r = -1; one panel: index 0 of an empty tensor *)
Definition side_eff (effs : list xr) : res xr :=
  match effs with
  | [] => Err RuntimeError
  | [_] => Err IndexError
  | _ =>
      let p_miss := map (xsub (Fin 1)) effs in
      let c := rev (combinations (List.length effs - 1) (seq 0 (List.length effs))) in
      let p_one_hit := xsum (map2 (fun e js => xmul e (xprod (map (fun j => nth j p_miss NaN) js))) effs c) in
      let p_no_hit := xprod p_miss in
      Ok (xsub (xsub (Fin 1) p_one_hit) p_no_hit)
  end.
Definition muon_eff (above below : list xr) : res xr :=
  a <- side_eff above ;; b <- side_eff below ;; Ok (xmul a b).
Definition panel_efficiency (v : sview) : res (list xr) :=
  mapM (fun ab => muon_eff (fst ab) (snd ab)) (combine (s_above v) (s_below v)).

(* ---------- combination of scatter batches (volume.py:233-269) ---------- *)
(* ~v.isnan().any(1) *)
Definition not_any (f : xr -> bool) (v : tensor2) : list bool := map (fun row => negb (existsb f row)) v.
(* mask *= other *)
Definition mask_mul (m o : list bool) : res (list bool) :=
  if Nat.eqb (List.length m) (List.length o) then Ok (map2 andb m o) else Err RuntimeError.
(* torch.cat(..., dim=1) of matrices *)
Definition hcat (ms : list tensor2) : tensor2 :=
  match ms with [] => [] | m :: ms => fold_left (map2 (@app xr)) ms m end.
Definition values_of (bs : list sview) : list tensor2 :=
  [flat_map s_poca bs; flat_map s_tot bs; flat_map s_tin bs; flat_map s_tout bs; map (fun p => [p]) (flat_map s_mom bs)].
Definition uncs_of (bs : list sview) : list tensor2 :=
  [flat_map s_poca_unc bs; flat_map s_tot_unc bs; flat_map s_tin_unc bs; flat_map s_tout_unc bs; map (fun _ => [Fin 0]) (flat_map s_mom bs)].
Definition valid_mask (bs : list sview) : res (list bool) :=
  foldM (fun m (vu : tensor2 * tensor2) =>
           let (v, u) := vu in
           m <- mask_mul m (not_any xisnan v) ;; m <- mask_mul m (not_any xisinf v) ;;
           m <- mask_mul m (not_any xisnan u) ;; mask_mul m (not_any xisinf u))
        (combine (values_of bs) (uncs_of bs)) (map (fun _ => true) (flat_map s_poca bs)).
(* the columns of the combined tensors: poca 0-2, total scatter 3, theta in 4, theta out 5, momentum 6 (volume.py:128, 216-231) *)
Definition col (k : nat) (t : tensor2) : list xr := map (fun row => nth k row NaN) t.

(* ---------- voxel probabilities (volume.py:361-398) ---------- *)
(* cdf loc scale x of torch.distributions.Normal, any function; a voxel has side s and lower corner e *)
Definition voxel_prob (cdf : R -> R -> R -> R) (s : R) (poca unc : R * R * R) (e : R * R * R) : R :=
  let '(px, py, pz) := poca in let '(ux, uy, uz) := unc in let '(x, y, z) := e in
  let d p u l := cdf p (u + 1 / 10000000) (l + s) - cdf p (u + 1 / 10000000) l in
  d px ux x * d py uy y * d pz uz z.
(* Normal(loc, scale) checks its arguments: ValueError when loc or scale is NaN or scale is not positive.
   Infinite entries do not get here: they were masked. *)
Definition three (row : list xr) : option (R * R * R) :=
  match row with Fin x :: Fin y :: Fin z :: _ => Some (x, y, z) | _ => None end.
Definition scales_ok (u : R * R * R) : bool :=
  let '(x, y, z) := u in Rltb 0 (x + 1 / 10000000) && Rltb 0 (y + 1 / 10000000) && Rltb 0 (z + 1 / 10000000).
(* reshape to (x, y, z), then permute to (z, x, y) *)
Definition to_zxy {A} (nx ny nz : nat) (d : A) (l : list A) : list A :=
  flat_map (fun k => flat_map (fun i => map (fun j => nth ((i * ny + j) * nz + k) l d) (seq 0 ny)) (seq 0 nx)) (seq 0 nz).
(* shape of the volume, voxel size, lower corners of the voxels *)
Record grid := Grid { g_nx : nat; g_ny : nat; g_nz : nat; g_size : R; g_edges : list (R * R * R) }.
(* inference/volume.py:41-55  from the layers of the volume *)
Definition grid_of (ls : list layer) : res grid :=
  L <- last_passive ls ;;
  es <- build_xyz_edges ls ;;
  Ok (Grid (Z.to_nat (round_half_even (pl_lx L / pl_size L))) (Z.to_nat (round_half_even (pl_ly L / pl_size L)))
           (List.length (passives ls)) (pl_size L) es).
(* torch.stack over no voxels raises; the reshape to (n, x, y, z) needs as many entries *)
Definition shape_ok (g : grid) (n rows : nat) : bool :=
  negb (Nat.eqb (List.length (g_edges g)) 0) && Nat.eqb (rows * List.length (g_edges g)) (n * (g_nx g * g_ny g * g_nz g)).
Definition muon_probs (cdf : R -> R -> R -> R) (g : grid) (var unc : list xr) : res (list xr) :=
  match three var, three unc with
  | Some p, Some u =>
      if scales_ok u then
        Ok (map (fun w => Fin (w + 1 / 1000000000000000))
                (to_zxy (g_nx g) (g_ny g) (g_nz g) 0 (map (voxel_prob cdf (g_size g) p u) (g_edges g))))
      else Err ValueError
  | _, _ => Err ValueError
  end.

(* ---------- X0 (volume.py:139-158, 174-201, 297-332) ---------- *)
Definition x0_from_scatters (dz : R) (scatter tin tout mom : xr) : xr :=
  let c := xdiv (xadd (xcos tin) (xcos tout)) (Fin 2) in
  xdiv (xmul (xsquare (xdiv (Fin SCATTER_COEF_A) mom)) (Fin dz)) (xmul (xsquare scatter) c).
Definition weighted_mean (x w : list xr) : xr := xdiv (xsum (map2 xmul x w)) (xsum w).
Definition weighted_rms (x w : list xr) : xr := xsqrt (xdiv (xsum (map2 (fun a b => xmul (xsquare a) b) x w)) (xsum w)).
(* variance of the square of a variable by error propagation *)
Definition sq_var (x u : xr) : xr := xsquare (xmul (xmul (Fin 2) x) u).
Definition var_weights (w vars : list xr) : list xr := map2 (fun w v => nan_to_num (xdiv w v)) w vars.
(* one voxel: the probabilities of the muons to have scattered in it *)
Definition voxel_x0 (dz : R) (vars uncs : tensor2) (eff probs : list xr) : xr :=
  let w := map2 xmul eff probs in
  let rms k := weighted_rms (col k vars) (var_weights w (map2 sq_var (col k vars) (col k uncs))) in
  let mom_var := map2 sq_var (col 6 vars) (col 6 uncs) in
  let mom_var := if forallb (fun v => xeq v (Fin 0)) mom_var then map (fun _ => Fin 1) mom_var else mom_var in
  x0_from_scatters dz (xdiv (rms 3%nat) (Fin (sqrt 2))) (rms 4%nat) (rms 5%nat) (weighted_rms (col 6 vars) (var_weights w mom_var)).
Definition voxel_preds (g : grid) (vars uncs : tensor2) (eff : list xr) (probs : list (list xr)) : res (list xr) :=
  let preds := map (fun j => voxel_x0 (g_size g) vars uncs eff (map (fun p => nth j p NaN) probs))
                   (seq 0 (g_nx g * g_ny g * g_nz g)) in
  if existsb xisnan preds then Err ValueError else Ok preds.

(* ---------- the inferrer with its memo fields ---------- *)
(* a batch whose properties raise when read (view_of) is held as the exception: they are read by _combine_scatters only *)
Record inf := Inf {
  i_batches : list (res sview); i_n : option nat; i_vars : option tensor2; i_uncs : option tensor2;
  i_probs : option (list (list xr)); i_eff : option (list xr); i_preds : option (list xr); i_pred_uncs : option (list xr) }.
Definition new_inf : inf := Inf [] None None None None None None None.

(* computations that may raise and change the fields *)
Definition act (A : Type) : Type := inf -> res A * inf.
Definition ret {A} (a : A) : act A := fun s => (Ok a, s).
Definition raise {A} (e : exn) : act A := fun s => (Err e, s).
Definition lift {A} (r : res A) : act A := fun s => (r, s).
Definition seqA {A B} (m : act A) (f : A -> act B) : act B :=
  fun s => match m s with (Ok a, s') => f a s' | (Err e, s') => (Err e, s') end.
Notation "x <~ m ;; f" := (seqA m (fun x => f)) (at level 61, m at next level, right associativity).
Definition upd (f : inf -> inf) : act unit := fun s => (Ok tt, f s).
Definition field {A} (f : inf -> A) : act A := fun s => (Ok (f s), s).
Definition need {A} (o : option A) (e : exn) : act A := match o with Some a => ret a | None => raise e end.

Definition set_vars v s := Inf (i_batches s) (i_n s) (Some v) (i_uncs s) (i_probs s) (i_eff s) (i_preds s) (i_pred_uncs s).
Definition set_uncs v s := Inf (i_batches s) (i_n s) (i_vars s) (Some v) (i_probs s) (i_eff s) (i_preds s) (i_pred_uncs s).
Definition set_eff v s := Inf (i_batches s) (i_n s) (i_vars s) (i_uncs s) (i_probs s) (Some v) (i_preds s) (i_pred_uncs s).
Definition set_n v s := Inf (i_batches s) (Some v) (i_vars s) (i_uncs s) (i_probs s) (i_eff s) (i_preds s) (i_pred_uncs s).
Definition set_probs v s := Inf (i_batches s) (i_n s) (i_vars s) (i_uncs s) (Some v) (i_eff s) (i_preds s) (i_pred_uncs s).
Definition set_preds v s := Inf (i_batches s) (i_n s) (i_vars s) (i_uncs s) (i_probs s) (i_eff s) (Some v) None.
Definition set_pred_uncs v s := Inf (i_batches s) (i_n s) (i_vars s) (i_uncs s) (i_probs s) (i_eff s) (i_preds s) (Some v).

Section Inferrer.
Variables (g : grid) (cdf : R -> R -> R -> R).
Variable eff_of : sview -> res (list xr).              (* compute_efficiency of the class *)
Variable pred_unc : list xr -> tensor2 -> tensor2 -> list xr.   (* from gradients; not modelled *)

(* volume.py:82-90 and 203-214  add_scatters, _reset_vars *)
Definition add_scatters (v : res sview) (s : inf) : inf := Inf (i_batches s ++ [v]) None None None None None None None.

(* volume.py:233-269: fields are assigned one after the other *)
Definition combine_scatters : act unit :=
  bs <~ field i_batches ;;
  match bs with
  | [] => raise ValueError
  | _ =>
      bs <~ lift (mapM (fun b => b) bs) ;;
      m <~ lift (valid_mask bs) ;;
      vars <~ lift (mapM (bool_index m) (values_of bs)) ;;
      _ <~ upd (set_vars (hcat vars)) ;;
      uncs <~ lift (mapM (bool_index m) (uncs_of bs)) ;;
      _ <~ upd (set_uncs (hcat uncs)) ;;
      effs <~ lift (mapM eff_of bs) ;;
      e <~ lift (bool_index m (concat effs)) ;;
      _ <~ upd (set_eff e) ;;
      upd (set_n (List.length (hcat vars)))
  end.
(* "if self._muon_scatter_vars is None or self._muon_scatter_var_uncs is None: self._combine_scatters()" *)
Definition ensure_combined : act unit :=
  v <~ field i_vars ;; u <~ field i_uncs ;;
  match v, u with Some _, Some _ => ret tt | _, _ => combine_scatters end.

(* volume.py:400-530  the properties.  n_mu and muon_efficiency may return None (when compute_efficiency raised earlier) *)
Definition get_n : act (option nat) := _ <~ ensure_combined ;; field i_n.
Definition get_vars : act tensor2 := _ <~ ensure_combined ;; v <~ field i_vars ;; need v TypeErr.
Definition get_uncs : act tensor2 := _ <~ ensure_combined ;; v <~ field i_uncs ;; need v TypeErr.
Definition get_eff : act (option (list xr)) := _ <~ ensure_combined ;; field i_eff.
Definition get_probs : act (list (list xr)) :=
  o <~ field i_probs ;;
  match o with
  | Some p => ret p
  | None =>
      vars <~ get_vars ;; uncs <~ get_uncs ;;
      p <~ lift (mapM (fun vu => muon_probs cdf g (fst vu) (snd vu)) (combine vars uncs)) ;;
      n <~ get_n ;; n <~ need n TypeErr ;;
      if shape_ok g n (List.length p) then (_ <~ upd (set_probs p) ;; ret p) else raise RuntimeError
  end.
Definition get_preds : act (list xr) :=
  o <~ field i_preds ;;
  match o with
  | Some p => ret p
  | None =>
      e <~ get_eff ;; e <~ need e AttributeError ;; n <~ get_n ;; n <~ need n TypeErr ;; probs <~ get_probs ;; vars <~ get_vars ;; uncs <~ get_uncs ;;
      if Nat.eqb (List.length e) n then
        (p <~ lift (voxel_preds g vars uncs e probs) ;; _ <~ upd (set_preds p) ;; ret p)
      else raise RuntimeError
  end.
Definition get_pred_uncs : act (list xr) :=
  o <~ field i_pred_uncs ;;
  match o with
  | Some p => ret p
  | None =>
      p <~ get_preds ;; vars <~ field i_vars ;; vars <~ need vars TypeErr ;; uncs <~ field i_uncs ;; uncs <~ need uncs TypeErr ;;
      let u := pred_unc p vars uncs in
      _ <~ upd (set_pred_uncs u) ;; ret u
  end.
(* volume.py:160-171  get_prediction; None without scatter batches *)
Definition get_prediction : act (option (list xr)) :=
  bs <~ field i_batches ;;
  match bs with [] => ret None | _ => p <~ get_preds ;; ret (Some p) end.

(* what can be done with an inferrer, and what it answers *)
Inductive iread := RN | RVars | RUncs | REff | RProbs | RPreds | RPredUncs | RPrediction.
Inductive iop := Add (v : res sview) | Ask (r : iread).
Inductive ians := AN (n : nat) | AMat (t : list (list xr)) | AVec (t : list xr) | ANone.
Definition ask (r : iread) : act ians :=
  match r with
  | RN => n <~ get_n ;; ret (match n with Some n => AN n | None => ANone end)
  | RVars => t <~ get_vars ;; ret (AMat t)
  | RUncs => t <~ get_uncs ;; ret (AMat t)
  | REff => t <~ get_eff ;; ret (match t with Some t => AVec t | None => ANone end)
  | RProbs => t <~ get_probs ;; ret (AMat t)
  | RPreds => t <~ get_preds ;; ret (AVec t)
  | RPredUncs => t <~ get_pred_uncs ;; ret (AVec t)
  | RPrediction => t <~ get_prediction ;; ret (match t with Some p => AVec p | None => ANone end)
  end.
(* the answers, in order; an exception is an answer and the inferrer is used further *)
Fixpoint interact (ops : list iop) (s : inf) : list (res ians) :=
  match ops with
  | [] => []
  | Add v :: ops => interact ops (add_scatters v s)
  | Ask r :: ops => let (a, s') := ask r s in a :: interact ops s'
  end.
End Inferrer.

(* ---------- DenseBlockClassifierFromX0s (volume.py:743-851) ---------- *)
(* F.avg_pool3d(kernel_size=3, stride=1, padding=1, count_include_pad=False): mean over the voxel and its neighbours *)
Definition around (i n : nat) : list nat := filter (fun k => Nat.leb k (i + 1) && Nat.leb i (k + 1)) (seq 0 n).
Definition avg_pool (nz nx ny : nat) (l : list R) : list R :=
  flat_map (fun k => flat_map (fun i => map (fun j =>
    let cells := flat_map (fun k' => flat_map (fun i' => map (fun j' => nth ((k' * nx + i') * ny + j') l 0) (around j ny)) (around i nx)) (around k nz) in
    Rsum cells / INR (List.length cells)) (seq 0 ny)) (seq 0 nx)) (seq 0 nz).
(* kthvalue: k-th smallest, counted from 1 *)
Fixpoint insert_up (x : R) (l : list R) : list R :=
  match l with [] => [x] | y :: l' => if Rleb x y then x :: l else y :: insert_up x l' end.
Definition sort_up (l : list R) : list R := fold_right insert_up [] l.
Definition kthvalue (k : Z) (l : list R) : res R :=
  if (1 <=? k)%Z && (k <=? Z.of_nat (List.length l))%Z then Ok (nth (Z.to_nat (k - 1)) (sort_up l) 0) else Err RuntimeError.
Definition Rsigmoid (x : R) : R := / (1 + exp (- x)).
(* n_vox: number of voxels; xyz_centres has 3 entries per voxel, and numel() counts all of them (volume.py:795) *)
Definition block_frac (n_block n_vox : nat) : R := INR n_block / INR (3 * n_vox).
Definition block_cut (frac : R) (l : list R) : res R :=
  kthvalue (1 + round_half_even (frac * (INR (List.length l) - 1))) l.
Definition block_weights (cut_coef cut : R) (l : list R) : list R := map (fun x => Rsigmoid (cut_coef * (x - cut))) l.
Definition wmean (w l : list R) : R := Rsum (map2 Rmult w l) / Rsum w.
Definition block_score (cut_coef offset coef frac : R) (l : list R) : res R :=
  cut <- block_cut frac l ;;
  let w_bkg := block_weights cut_coef cut l in
  let w_blk := map (fun w => 1 - w) w_bkg in
  let m_bkg := wmean w_bkg l in
  let m_blk := wmean w_blk l in
  let r := 2 * (m_bkg - m_blk) / (m_bkg + m_blk) in
  Ok (Rsigmoid ((r + offset) * coef)).
(* get_prediction on the voxel predictions: None[None] raises TypeError, None.flatten() AttributeError *)
Definition block_prediction (avgpool : bool) (nz nx ny : nat) (cut_coef offset coef frac : R) (preds : option (list R)) : res R :=
  match preds with
  | None => if avgpool then Err TypeErr else Err AttributeError
  | Some l => block_score cut_coef offset coef frac (if avgpool then avg_pool nz nx ny l else l)
  end.
