(* Model of benchmarks/ladle_furnace/inference.py:PocaZLadleFurnaceFillLevelInferrer with its memo fields.
   The fields are those of Model/X0Infer.v:inf.  _pred_height is i_preds (one entry); _muon_probs_per_voxel_zxy and _pred_height_unc are
   never set.  compute_efficiency (207-238) is the same text as PanelX0Inferrer's: panel_efficiency. *)
From Coq Require Import ZArith.
From Verif Require Import Model.Ladle.
From Verif Require Export Model.X0Infer.
Open Scope R_scope.
Open Scope list_scope.

(* inference/volume.py:82-90 (inherited) add_scatters, and 195-205 _reset_vars: X0Infer.add_scatters *)

(* 300-307  the mask of the muons used: of PoCA and its uncertainty only *)
Definition poca_mask (bs : list sview) : res (list bool) :=
  let v := flat_map s_poca bs in let u := flat_map s_poca_unc bs in
  let m := map (fun _ => true) v in
  m <- mask_mul m (not_any xisnan v) ;; m <- mask_mul m (not_any xisinf v) ;;
  m <- mask_mul m (not_any xisnan u) ;; mask_mul m (not_any xisinf u).
(* 281-312  _combine_scatters: fields are assigned one after the other *)
Definition poca_combine : act unit :=
  bs <~ field i_batches ;;
  match bs with
  | [] => raise ValueError
  | _ =>
      bs <~ lift (mapM (fun b => b) bs) ;;
      m <~ lift (poca_mask bs) ;;
      vars <~ lift (bool_index m (flat_map s_poca bs)) ;;
      _ <~ upd (set_vars vars) ;;
      uncs <~ lift (bool_index m (flat_map s_poca_unc bs)) ;;
      _ <~ upd (set_uncs uncs) ;;
      effs <~ lift (mapM panel_efficiency bs) ;;
      e <~ lift (bool_index m (concat effs)) ;;
      _ <~ upd (set_eff e) ;;
      upd (set_n (List.length vars))
  end.
Definition poca_ensure : act unit :=
  v <~ field i_vars ;; u <~ field i_uncs ;;
  match v, u with Some _, Some _ => ret tt | _, _ => poca_combine end.
(* 263-279, 314-334  the properties *)
Definition poca_vars : act tensor2 := _ <~ poca_ensure ;; v <~ field i_vars ;; need v TypeErr.
Definition poca_uncs : act tensor2 := _ <~ poca_ensure ;; v <~ field i_uncs ;; need v TypeErr.
Definition poca_eff : act (option (list xr)) := _ <~ poca_ensure ;; field i_eff.
Definition poca_n : act (option nat) := _ <~ poca_ensure ;; field i_n.

(* a row of the combined tensors; they have three entries, numbers after the mask *)
Definition seen_of (v u : list xr) : res seen :=
  match three v, three u with Some p, Some q => Ok (Seen p q 0) | _, _ => Err IndexError (* not reached *) end.
Section Height.
Variables (cdf : R -> R -> R -> R) (lw : R * R) (size : R).
(* 357-390  _get_height_pred, with the weights of the pixels as they are now *)
Definition poca_height (gw : list R) : act xr :=
  vars <~ poca_vars ;; uncs <~ poca_uncs ;; e <~ poca_eff ;; e <~ need e AttributeError ;; n <~ poca_n ;; n <~ need n TypeErr ;;
  if Nat.eqb (List.length e) n then
    (ms <~ lift (mapM (fun vu => seen_of (fst vu) (snd vu)) (combine vars uncs)) ;; lift (height_with cdf lw size gw e ms))
  else raise RuntimeError.
(* 252-261  pred_height *)
Definition get_height (gw : list R) : act (list xr) :=
  o <~ field i_preds ;;
  match o with
  | Some h => ret h
  | None => h <~ poca_height gw ;; _ <~ upd (set_preds [h]) ;; ret [h]
  end.
(* 240-250  get_prediction *)
Definition poca_prediction (gw : list R) : act (option (list xr)) :=
  bs <~ field i_batches ;;
  match bs with [] => ret None | _ => h <~ get_height gw ;; ret (Some h) end.

(* what can be done with the inferrer: add a batch, set smooth (340-349), ask for the prediction, the PoCAs, their uncertainties, the
   efficiencies or the number of muons *)
Inductive pread := PPred | PVars | PUncs | PEff | PNum.
Inductive pop := PAdd (v : res sview) | PSmooth (smooth : R) | PAsk (r : pread).
Definition pask (gw : list R) (r : pread) : act ians :=
  match r with
  | PPred => t <~ poca_prediction gw ;; ret (match t with Some p => AVec p | None => ANone end)
  | PVars => t <~ poca_vars ;; ret (AMat t)
  | PUncs => t <~ poca_uncs ;; ret (AMat t)
  | PEff => t <~ poca_eff ;; ret (match t with Some t => AVec t | None => ANone end)
  | PNum => n <~ poca_n ;; ret (match n with Some n => AN n | None => ANone end)
  end.
(* the answers; the state is the fields and sigmoid_grid_wgt.  The setter of smooth touches no memo field *)
Fixpoint pinteract (ops : list pop) (gw : list R) (s : inf) : list (res ians) :=
  match ops with
  | [] => []
  | PAdd v :: ops => pinteract ops gw (add_scatters v s)
  | PSmooth x :: ops => match set_smooth lw size x with Ok gw => pinteract ops gw s | Err e => Err e :: pinteract ops gw s end
  | PAsk r :: ops => let (a, s') := pask gw r s in a :: pinteract ops gw s'
  end.
(* 142-182  a new inferrer with the given smooth *)
Definition poca_session (smooth : R) (ops : list pop) : res (list (res ians)) :=
  gw <- set_smooth lw size smooth ;; Ok (pinteract ops gw new_inf).
End Height.
