(* What the inference of radiation lengths is meant to do. *)
From Coq Require Import ZArith.
From Verif Require Import Model.X0Infer Spec.LayerSpec Spec.VolumeSpec Spec.ScatterSpec.
Open Scope R_scope.
Open Scope list_scope.

(* --- efficiency --- *)
(* which of n panels fire: all possibilities *)
Fixpoint outcomes (n : nat) : list (list bool) :=
  match n with O => [[]] | S n => map (cons true) (outcomes n) ++ map (cons false) (outcomes n) end.
(* probability of one possibility, panels firing independently with the given efficiencies *)
Definition outcome_prob (effs : list R) (fired : list bool) : R := Rprod (map2 (fun e b => if b : bool then e else 1 - e) effs fired).
Definition two_fired (fired : list bool) : bool := Nat.leb 2 (count_true fired).
(* probability that at least two panels fire *)
Definition prob_two (effs : list R) : R := Rsum (map (outcome_prob effs) (filter two_fired (outcomes (List.length effs)))).
Definition probability (e : R) : Prop := 0 <= e <= 1.

(* --- radiation lengths --- *)
(* leading-order width of the scattering angle in one projection, for a muon of momentum p crossing a length len of X0 x0 *)
Definition leading_width (p len x0 : R) : R := 136 / 10000 / p * sqrt (len / x0).
(* the X0 for which muons crossing a layer of height dz with cosines c would scatter by t in one projection *)
Definition x0_law (dz t c p : R) : R := sq (136 / 10000 / p) * dz / (sq t * c).
(* values with their weights *)
Definition values (l : list (R * R)) : list xr := map (fun vw => Fin (fst vw)) l.
Definition weights (l : list (R * R)) : list xr := map (fun vw => Fin (snd vw)) l.
(* all weights multiplied by k; entries with a weight *)
Definition scale_weights (k : R) (l : list (R * R)) : list (R * R) := map (fun vw => (fst vw, k * snd vw)) l.
Definition counted (l : list (R * R)) : list (R * R) := filter (fun vw => Rltb 0 (snd vw)) l.
(* the weights are not negative and not all zero *)
Definition weighable (l : list (R * R)) : Prop := (forall v w, In (v, w) l -> 0 <= w) /\ exists v w, In (v, w) l /\ 0 < w.

(* one muon as used for one voxel: position of closest approach, total scattering, angles, momentum, their uncertainties,
   its efficiency and its probability to have scattered in the voxel *)
Record used_muon := Used {
  w_poca : R * R * R; w_poca_u : R * R * R; w_tot : R; w_tot_u : R; w_in : R; w_in_u : R; w_out : R; w_out_u : R; w_mom : R;
  w_eff : R; w_prob : R }.
Definition xl3 (p : R * R * R) : list xr := let '(x, y, z) := p in [Fin x; Fin y; Fin z].
Definition var_row (m : used_muon) : list xr := xl3 (w_poca m) ++ [Fin (w_tot m); Fin (w_in m); Fin (w_out m); Fin (w_mom m)].
Definition unc_row (m : used_muon) : list xr := xl3 (w_poca_u m) ++ [Fin (w_tot_u m); Fin (w_in_u m); Fin (w_out_u m); Fin 0].
Definition useful (ms : list used_muon) : Prop :=
  (forall m, In m ms -> 0 <= w_eff m /\ 0 < w_prob m) /\ exists m, In m ms /\ 0 < w_eff m.
Definition predicted (dz : R) (ms : list used_muon) : xr :=
  voxel_x0 dz (map var_row ms) (map unc_row ms) (map (fun m => Fin (w_eff m)) ms) (map (fun m => Fin (w_prob m)) ms).

(* --- combination of batches --- *)
(* one muon in a scatter batch *)
Record smuon := SMuon {
  k_poca : xr * xr * xr; k_poca_u : xr * xr * xr; k_tot : xr; k_tot_u : xr; k_in : xr; k_in_u : xr; k_out : xr; k_out_u : xr; k_mom : xr;
  k_above : list xr; k_below : list xr }.
Definition t3 (p : xr * xr * xr) : list xr := let '(x, y, z) := p in [x; y; z].
Definition view (ms : list smuon) : sview :=
  SView (map (fun m => t3 (k_poca m)) ms) (map (fun m => t3 (k_poca_u m)) ms) (map (fun m => [k_tot m]) ms) (map (fun m => [k_tot_u m]) ms)
        (map (fun m => [k_in m]) ms) (map (fun m => [k_in_u m]) ms) (map (fun m => [k_out m]) ms) (map (fun m => [k_out_u m]) ms)
        (map k_mom ms) (map k_above ms) (map k_below ms).
Definition k_vars (m : smuon) : list xr := t3 (k_poca m) ++ [k_tot m; k_in m; k_out m; k_mom m].
Definition k_uncs (m : smuon) : list xr := t3 (k_poca_u m) ++ [k_tot_u m; k_in_u m; k_out_u m; Fin 0].
(* a muon is used if none of its variables and uncertainties is NaN or infinite *)
Definition all_numbers (m : smuon) : bool := forallb xisfin (k_vars m) && forallb xisfin (k_uncs m).

(* uncertainties are tensors of the shape of the variable *)
Definition same_shape (unc_of : svar -> list (list xr) -> list (list xr)) : Prop :=
  forall v t, map (@List.length xr) (unc_of v t) = map (@List.length xr) t.

(* --- questions to an inferrer --- *)
(* a new inferrer that was given the batches bs *)
Definition given (bs : list (res sview)) : inf := Inf bs None None None None None None None.
(* the questions asked, each with the batches added before it *)
Fixpoint questions (ops : list iop) (bs : list (res sview)) : list (list (res sview) * iread) :=
  match ops with
  | [] => []
  | Add v :: ops => questions ops (bs ++ [v])
  | Ask r :: ops => (bs, r) :: questions ops bs
  end.
(* the efficiencies of every batch can be computed, one per muon *)
Definition eff_total (eff_of : sview -> res (list xr)) (ops : list iop) : Prop :=
  forall v, In (Add (Ok v)) ops -> exists es, eff_of v = Ok es /\ List.length es = List.length (s_poca v).

(* --- probabilities of voxels --- *)
(* a family of distribution functions: location, scale, position *)
Definition is_cdf (cdf : R -> R -> R -> R) : Prop :=
  forall l s, 0 < s -> (forall x, 0 <= cdf l s x <= 1) /\ forall x y, x <= y -> cdf l s x <= cdf l s y.
(* mass between two positions; scales are uncertainties plus 1e-7 *)
Definition mass (cdf : R -> R -> R -> R) (loc unc lo hi : R) : R := cdf loc (unc + 1 / 10000000) hi - cdf loc (unc + 1 / 10000000) lo.
Definition mass3 (cdf : R -> R -> R -> R) (p u lo hi : R * R * R) : R :=
  let '(px, py, pz) := p in let '(ux, uy, uz) := u in let '(x, y, z) := lo in let '(x', y', z') := hi in
  mass cdf px ux x x' * mass cdf py uy y y' * mass cdf pz uz z z'.
Definition nonneg3 (u : R * R * R) : Prop := let '(x, y, z) := u in 0 <= x /\ 0 <= y /\ 0 <= z.

(* --- dense blocks --- *)
(* how many of the voxels are counted as block rather than background *)
Definition below_cut (cut : R) (l : list R) : nat := List.length (filter (fun x => Rleb x cut) l).

(* --- whole volume --- *)
(* the number in a tensor entry that is known to be one *)
Definition num (a : xr) : R := match a with Fin r => r | _ => 0 end.
(* the hit efficiencies of muon k on each side: numbers in [0,1], two or more panels *)
Definition panels_of (k : smuon) (a b : list R) : Prop :=
  k_above k = map Fin a /\ k_below k = map Fin b /\ (2 <= List.length a)%nat /\ (2 <= List.length b)%nat /\ Forall probability a /\ Forall probability b.
Definition poca_unc_ok (k : smuon) : Prop := let '(x, y, z) := k_poca_u k in 0 <= num x /\ 0 <= num y /\ 0 <= num z.
(* add the batches, then ask for the prediction *)
Definition scan (bss : list (list smuon)) : list iop := map (fun ms => Add (Ok (view ms))) bss ++ [Ask RPrediction].
(* a muon seen by two perfect panels on each side *)
Definition seen_muon (tot tin tout mom : R) : smuon :=
  SMuon (Fin 1, Fin (1/2), Fin 3) (Fin 0, Fin 0, Fin 0) (Fin tot) (Fin (1/100)) (Fin tin) (Fin (1/100)) (Fin tout) (Fin (1/100)) (Fin mom) [Fin 1; Fin 1] [Fin 1; Fin 1].
