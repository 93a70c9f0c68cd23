(* Properties C34-C40 and C72-C74: inference of radiation lengths. *)
From Coq Require Import Psatz Lia ZArith.
From Verif Require Import Model.X0Infer Spec.VolumeSpec Spec.InferSpec Proofs.EffP Proofs.WAvgP Proofs.InferStateP Proofs.CombineP Proofs.VoxelProbP Proofs.BlockP Proofs.InferAllP.
From Verif Require Import Properties.VolumeProps.
Open Scope R_scope.
Open Scope list_scope.

(* --- examples used below --- *)
Definition good_muon : smuon := seen_muon (1/10) 0 0 1.
Definition lost_muon : smuon :=
  SMuon (NaN, Fin 0, Fin 0) (Fin 0, Fin 0, Fin 0) (Fin 0) (Fin 0) (Fin 0) (Fin 0) (Fin 0) (Fin 0) (Fin 1) [Fin 1; Fin 1] [Fin 1; Fin 1].
Definition one_panel_muon : smuon :=
  SMuon (Fin 0, Fin 0, Fin 0) (Fin 0, Fin 0, Fin 0) (Fin 0) (Fin 0) (Fin 0) (Fin 0) (Fin 0) (Fin 0) (Fin 1) [Fin 1] [Fin 1].
Definition step_cdf (l s x : R) : R := if Rlt_dec x l then 0 else 1.
Lemma step_is_cdf : is_cdf step_cdf.
Proof. intros l s _. unfold step_cdf. split; intros; repeat destruct (Rlt_dec _ _); lra. Qed.
Lemma perfect k : In k [good_muon; lost_muon] -> panels_of k [1; 1] [1; 1].
Proof. intros [<-|[<-|[]]]; (split; [reflexivity|]; split; [reflexivity|]; cbn; split; [lia|]; split; [lia|]; unfold probability; split; repeat constructor; lra). Qed.
Lemma two_perfect : prob_two [1; 1] = 1.
Proof. unfold prob_two, outcome_prob. cbn -[Rmult Rplus Rminus]. lra. Qed.
Definition no_unc (p : list xr) (v u : tensor2) : list xr := [].

(* C34. Whatever the order of additions and reads, every answer is the one of a new inferrer that was given the same
   batches and asked only this.  Efficiencies must be computable: two panels or more on each side. *)
Theorem C34_reads_fresh :
  forall g cdf pred_unc ops,
  (forall v, In (Add (Ok v)) ops -> exists ms a b, v = view ms /\ forall k, In k ms -> panels_of k (a k) (b k)) ->
  interact g cdf panel_efficiency pred_unc ops new_inf
  = map (fun q => fst (ask g cdf panel_efficiency pred_unc (snd q) (given (fst q)))) (questions ops []).
Proof. exact reads_fresh_panels. Qed.
Print Assumptions C34_reads_fresh.

(* C34. The same for any other inferrer, if its efficiencies never raise and there is one for every muon. *)
Theorem C34_reads_fresh_any :
  forall g cdf eff_of pred_unc ops, eff_total eff_of ops ->
  interact g cdf eff_of pred_unc ops new_inf
  = map (fun q => fst (ask g cdf eff_of pred_unc (snd q) (given (fst q)))) (questions ops []).
Proof. exact reads_fresh. Qed.
Print Assumptions C34_reads_fresh_any.

Example C34_case :
  let ops := [Ask RN; Add (Ok (view [good_muon])); Ask RPreds; Ask RPredUncs; Add (Ok (view [lost_muon; good_muon])); Ask RN; Add (Err TypeErr); Ask RVars] in
  forall v, In (Add (Ok v)) ops -> exists ms a b, v = view ms /\ forall k, In k ms -> panels_of k (a k) (b k).
Proof.
  cbv zeta. intros v I. simpl in I.
  assert (v = view [good_muon] \/ v = view [lost_muon; good_muon]) as [-> | ->].
  { destruct I as [I|[I|[I|[I|[I|[I|[I|[I|[]]]]]]]]]; try discriminate; injection I as <-; auto. }
  - exists [good_muon], (fun _ => [1; 1]), (fun _ => [1; 1]). split; [reflexivity|]. intros k [<-|[]]. apply perfect. simpl; auto.
  - exists [lost_muon; good_muon], (fun _ => [1; 1]), (fun _ => [1; 1]). split; [reflexivity|]. intros k [<-|[<-|[]]]; apply perfect; simpl; auto.
Qed.

(* C34. After an exception the answers depend on what was read before: with one panel on a side, the number of muons
   raises IndexError the first time and is None the second time. *)
Theorem C34_after_error_refuted :
  exists g cdf pred_unc v,
  interact g cdf panel_efficiency pred_unc [Add (Ok v); Ask RN; Ask RN] new_inf = [Err IndexError; Ok ANone].
Proof. exists (Grid 1 1 1 1 []), step_cdf, no_unc, (view [one_panel_muon]). reflexivity. Qed.
Print Assumptions C34_after_error_refuted.

(* C35. The efficiency of a muon is the probability that at least two panels above and at least two below fire. *)
Theorem C35_efficiency :
  forall a b, (2 <= List.length a)%nat -> (2 <= List.length b)%nat ->
  muon_eff (map Fin a) (map Fin b) = Ok (Fin (prob_two a * prob_two b)).
Proof. exact muon_eff_spec. Qed.
Print Assumptions C35_efficiency.

(* C35. It is a probability, and grows with the efficiency of every panel. *)
Theorem C35_bounds : forall l, Forall probability l -> 0 <= prob_two l <= 1.
Proof. exact two_bounds. Qed.
Print Assumptions C35_bounds.
Theorem C35_monotone : forall l l', Forall probability l -> Forall probability l' -> Forall2 Rle l l' -> prob_two l <= prob_two l'.
Proof. exact two_mono. Qed.
Print Assumptions C35_monotone.
Example C35_case : prob_two [1/2; 1/2; 1/2] = 1/2 /\ Forall probability [1/2; 1/2; 1/2].
Proof. split; [unfold prob_two, outcome_prob; cbn -[Rmult Rplus Rminus]; lra|unfold probability; repeat constructor; lra]. Qed.

(* C35. With fewer than two panels on a side there is no answer. *)
Theorem C35_one_panel_refuted : exists a b, List.length a = 1%nat /\ Forall probability a /\ muon_eff (map Fin a) (map Fin b) = Err IndexError.
Proof. exists [1], [1; 1]. split; [reflexivity|]. split; [unfold probability; repeat constructor; lra|reflexivity]. Qed.
Print Assumptions C35_one_panel_refuted.

(* C36. A muon is kept exactly if all its variables and uncertainties are numbers; variables, uncertainties and
   efficiencies are those of the kept muons, in order. *)
Theorem C36_kept :
  forall g cdf eff_of pred_unc e bss, bss <> [] -> (forall ms, In ms bss -> eff_of (view ms) = Ok (map e ms)) ->
  let kept := filter all_numbers (concat bss) in
  interact g cdf eff_of pred_unc (map (fun ms => Add (Ok (view ms))) bss ++ map Ask [RVars; RUncs; REff; RN]) new_inf
  = [Ok (AMat (map k_vars kept)); Ok (AMat (map k_uncs kept)); Ok (AVec (map e kept)); Ok (AN (List.length kept))].
Proof. exact kept_reads. Qed.
Print Assumptions C36_kept.

(* C36. What an inferrer reads from a scatter batch has this form, with the momenta of the muons and the efficiencies of
   their hits on the two sides. *)
Theorem C36_views :
  forall zr unc_of sb mus v, same_shape unc_of -> view_of zr unc_of sb mus = Ok v ->
  List.length (sb_coefs sb) = List.length (sb_tracks sb) -> List.length (sb_hits sb) = List.length (sb_tracks sb) ->
  List.length mus = List.length (sb_tracks sb) ->
  exists ms, v = view ms /\ List.length ms = List.length mus /\ map k_mom ms = map mp mus
    /\ map k_above ms = map (fun m => firstn (sb_above sb) (mh_eff m)) (sb_hits sb)
    /\ map k_below ms = map (fun m => skipn (sb_above sb) (mh_eff m)) (sb_hits sb).
Proof. exact view_shape. Qed.
Print Assumptions C36_views.

Example C36_case : filter all_numbers (concat [[good_muon]; []; [lost_muon; good_muon]]) = [good_muon; good_muon]
  /\ forall ms, In ms [[good_muon]; []; [lost_muon; good_muon]] -> panel_efficiency (view ms) = Ok (map (fun _ => Fin (prob_two [1; 1] * prob_two [1; 1])) ms).
Proof.
  split; [reflexivity|]. intros ms I. apply (panel_eff_view ms (fun _ => [1; 1]) (fun _ => [1; 1])). intros k Ik.
  assert (In k [good_muon; lost_muon]) as Q by (destruct I as [<-|[<-|[<-|[]]]]; simpl in *; tauto).
  destruct (perfect k Q) as (? & ? & ? & ? & _). auto.
Qed.

(* C37. From the leading-order width of the scattering of muons that cross a layer of height dz, the X0 of the layer. *)
Theorem C37_inverts :
  forall dz a b p x0, 0 < dz -> 0 < p -> 0 < x0 -> 0 < cos a + cos b ->
  x0_from_scatters dz (Fin (leading_width p (dz / ((cos a + cos b) / 2)) x0)) (Fin a) (Fin b) (Fin p) = Fin x0.
Proof.
  intros dz a b p x0 D P X C. rewrite x0_fin; try lra; [rewrite law_inverts by lra; reflexivity|].
  assert (0 < leading_width p (dz / ((cos a + cos b) / 2)) x0); [|lra].
  apply Rmult_lt_0_compat; [apply Rdiv_lt_0_compat; lra|]. apply sqrt_lt_R0. repeat apply Rdiv_lt_0_compat; lra.
Qed.
Print Assumptions C37_inverts.

(* C37. It is positive, decreases with the scattering, and scales with its inverse square. *)
Theorem C37_shape :
  forall dz t a b p, 0 < dz -> 0 < t -> 0 < cos a + cos b -> 0 < p ->
  exists x, x0_from_scatters dz (Fin t) (Fin a) (Fin b) (Fin p) = Fin x /\ 0 < x
  /\ (forall t' x', t <= t' -> x0_from_scatters dz (Fin t') (Fin a) (Fin b) (Fin p) = Fin x' -> x' <= x)
  /\ (forall k, 0 < k -> x0_from_scatters dz (Fin (k * t)) (Fin a) (Fin b) (Fin p) = Fin (x / (k * k))).
Proof.
  intros dz t a b p D T C P. exists (x0_law dz t ((cos a + cos b) / 2) p). split; [apply x0_fin; lra|].
  split; [apply law_pos; lra|]. split.
  - intros t' x' L. rewrite x0_fin by lra. injection 1 as <-. apply law_mono; lra.
  - intros k K. assert (0 < k * t) by (apply Rmult_lt_0_compat; lra). rewrite x0_fin by lra. rewrite law_scale by lra. reflexivity.
Qed.
Print Assumptions C37_shape.
Example C37_case : 0 < 1/10 /\ 0 < 1/100 /\ 0 < cos 0 + cos 0 /\ 0 < 5.
Proof. rewrite cos_0. lra. Qed.

(* C38. Weighted mean and weighted RMS lie between the extremes of the entries that have a weight. *)
Theorem C38_mean_bounds :
  forall l, weighable l -> exists m, weighted_mean (values l) (weights l) = Fin m
  /\ forall lo hi, (forall v w, In (v, w) l -> 0 < w -> lo <= v <= hi) -> lo <= m <= hi.
Proof. exact mean_bounds. Qed.
Print Assumptions C38_mean_bounds.
Theorem C38_rms_bounds :
  forall l, weighable l -> exists m, weighted_rms (values l) (weights l) = Fin m /\ 0 <= m
  /\ forall lo hi, 0 <= lo -> (forall v w, In (v, w) l -> 0 < w -> lo <= Rabs v <= hi) -> lo <= m <= hi.
Proof. exact rms_bounds. Qed.
Print Assumptions C38_rms_bounds.
(* C38. Only the ratios of the weights matter. *)
Theorem C38_scaled :
  forall k l, 0 < k -> weighable l ->
  weighted_mean (values (scale_weights k l)) (weights (scale_weights k l)) = weighted_mean (values l) (weights l)
  /\ weighted_rms (values (scale_weights k l)) (weights (scale_weights k l)) = weighted_rms (values l) (weights l).
Proof. exact scale_same. Qed.
Print Assumptions C38_scaled.
(* C38. Entries without weight do not matter. *)
Theorem C38_zero_weights :
  forall l, weighable l ->
  weighted_mean (values (counted l)) (weights (counted l)) = weighted_mean (values l) (weights l)
  /\ weighted_rms (values (counted l)) (weights (counted l)) = weighted_rms (values l) (weights l).
Proof. exact counted_same. Qed.
Print Assumptions C38_zero_weights.
Example C38_case : weighable [(3, 1/2); (100, 0); (-5, 2)].
Proof. split; [intros v w [H|[H|[H|[]]]]; injection H; intros; lra|]. exists 3, (1/2). simpl. split; [auto|lra]. Qed.

(* C39. The probability of every voxel is the mass of the voxel plus 1e-15; the sum is the mass of the volume plus
   1e-15 per voxel. *)
Theorem C39_voxel_probs :
  forall ls s m nx ny nz cdf p u var unc, stack ls s m nx ny nz -> is_cdf cdf -> nonneg3 u ->
  three var = Some p -> three unc = Some u ->
  exists g ps, grid_of ls = Ok g /\ muon_probs cdf g var unc = Ok (map Fin ps) /\ List.length ps = (nx * ny * nz)%nat
  /\ (forall i j k, (i < nx)%nat -> (j < ny)%nat -> (k < nz)%nat ->
        nth_error ps ((k * nx + i) * ny + j)
        = Some (mass3 cdf p u (INR i * s, INR j * s, IZR (m + Z.of_nat k) * s) (INR (S i) * s, INR (S j) * s, IZR (m + Z.of_nat (S k)) * s) + 1 / 1000000000000000))
  /\ Forall (fun q => 0 < q) ps
  /\ Rsum ps = mass3 cdf p u (0, 0, IZR m * s) (INR nx * s, INR ny * s, IZR (m + Z.of_nat nz) * s) + INR (nx * ny * nz) * (1 / 1000000000000000).
Proof. exact probs_spec. Qed.
Print Assumptions C39_voxel_probs.

(* C39. Hence at most one plus 1e-15 per voxel: a mass is at most one. *)
Theorem C39_mass_at_most_one :
  forall cdf p u lo hi, is_cdf cdf -> nonneg3 u ->
  (let '(x, y, z) := lo in let '(x', y', z') := hi in x <= x' /\ y <= y' /\ z <= z') -> 0 <= mass3 cdf p u lo hi <= 1.
Proof. exact mass3_le1. Qed.
Print Assumptions C39_mass_at_most_one.
Example C39_case : stack two_layers 1 2 3 1 2 /\ is_cdf step_cdf /\ nonneg3 (0, 0, 0)
  /\ three (k_vars good_muon) = Some (1, 1/2, 3) /\ three (k_uncs good_muon) = Some (0, 0, 0).
Proof. split; [apply two_layers_stack|]. split; [apply step_is_cdf|]. split; [simpl; lra|]. split; reflexivity. Qed.

(* C39. Otherwise ValueError: if one of the six numbers is not finite, or an uncertainty is -1e-7 or less. *)
Theorem C39_refused :
  forall cdf g var unc,
  (forall x y z vs x' y' z' us, var = Fin x :: Fin y :: Fin z :: vs -> unc = Fin x' :: Fin y' :: Fin z' :: us ->
     x' <= - (1 / 10000000) \/ y' <= - (1 / 10000000) \/ z' <= - (1 / 10000000)) ->
  muon_probs cdf g var unc = Err ValueError.
Proof.
  intros cdf g var unc H. unfold muon_probs.
  destruct (three var) as [[[x y] z]|] eqn:E; [|reflexivity]. destruct (three unc) as [[[x' y'] z']|] eqn:E'; [|reflexivity].
  assert (F : forall (l : list xr) (a b c : R), three l = Some (a, b, c) -> exists r, l = Fin a :: Fin b :: Fin c :: r).
  { intros l a b c. unfold three. destruct l as [|[] [|[] [|[] ?]]]; try discriminate. intro G. injection G as -> -> ->. eexists. reflexivity. }
  destruct (F _ _ _ _ E) as [vs ->]. destruct (F _ _ _ _ E') as [us ->]. specialize (H _ _ _ _ _ _ _ _ eq_refl eq_refl). unfold scales_ok.
  destruct (Rltb_spec 0 (x' + 1 / 10000000)), (Rltb_spec 0 (y' + 1 / 10000000)), (Rltb_spec 0 (z' + 1 / 10000000)); cbn; try reflexivity. exfalso. lra.
Qed.
Print Assumptions C39_refused.
Example C39_refused_case : forall cdf g, muon_probs cdf g [Fin 0; Fin 0; Fin 0] [Fin 1; Fin 1; Fin (-1)] = Err ValueError
  /\ muon_probs cdf g [Fin 0; NaN; Fin 0] [Fin 1; Fin 1; Fin 1] = Err ValueError.
Proof.
  intros. split; apply C39_refused.
  - intros x y z vs x' y' z' us _ E. injection E as <- <- <- _. lra.
  - intros x y z vs x' y' z' us E. discriminate.
Qed.

(* C40. The score is strictly between 0 and 1; it is a sigmoid of the relative difference r of background and block, which
   is not negative and 0 for a uniform volume. *)
Theorem C40_score :
  forall cut_coef offset coef frac l, l <> [] -> (forall x, In x l -> 0 < x) -> 0 <= frac <= 1 -> 0 <= cut_coef ->
  exists r, block_score cut_coef offset coef frac l = Ok (Rsigmoid ((r + offset) * coef)) /\ 0 <= r < 2
  /\ ((forall x y, In x l -> In y l -> x = y) -> r = 0).
Proof. exact score_spec. Qed.
Print Assumptions C40_score.
Theorem C40_sigmoid : forall x, 0 < Rsigmoid x < 1 /\ forall y, x < y -> Rsigmoid x < Rsigmoid y.
Proof. intro x. split; [apply sigmoid_bounds|intros y H; apply sigmoid_incr; exact H]. Qed.
Print Assumptions C40_sigmoid.
(* C40. Averaging over neighbours keeps the shape and the range. *)
Theorem C40_pool :
  forall nz nx ny l lo hi, List.length l = (nz * nx * ny)%nat -> (forall x, In x l -> lo <= x <= hi) ->
  List.length (avg_pool nz nx ny l) = List.length l /\ forall x, In x (avg_pool nz nx ny l) -> lo <= x <= hi.
Proof. exact pool_in. Qed.
Print Assumptions C40_pool.
(* C40. How many voxels count as block. *)
Theorem C40_block_count :
  forall n_block l, (1 <= List.length l)%nat -> NoDup l -> (n_block <= 3 * List.length l)%nat ->
  exists cut, block_cut (block_frac n_block (List.length l)) l = Ok cut /\ In cut l
  /\ Z.of_nat (below_cut cut l) = (1 + round_half_even (INR n_block / INR (3 * List.length l) * (INR (List.length l) - 1)))%Z.
Proof. exact cut_size. Qed.
Print Assumptions C40_block_count.
(* C40. This is too few, for all volumes with different predictions and all blocks of three or more voxels: the number of
   coordinates is taken for the number of voxels. *)
Theorem C40_block_too_small :
  forall n_block l, NoDup l -> (3 <= n_block <= List.length l)%nat ->
  exists cut, block_cut (block_frac n_block (List.length l)) l = Ok cut /\ (below_cut cut l < n_block)%nat.
Proof. exact cut_too_small. Qed.
Print Assumptions C40_block_too_small.
Example C40_case : NoDup [1; 2; 3; 4] /\ (3 <= 3 <= List.length [1; 2; 3; 4])%nat /\ (forall x, In x [1; 2; 3; 4] -> 0 < x).
Proof.
  split; [repeat constructor; simpl; intuition lra|]. split; [simpl; lia|]. simpl. intuition lra.
Qed.
Theorem C40_block_size_refuted :
  exists n_block l cut, NoDup l /\ (n_block <= List.length l)%nat
  /\ block_cut (block_frac n_block (List.length l)) l = Ok cut /\ (below_cut cut l < n_block)%nat.
Proof.
  destruct C40_case as (N & L & _). destruct (C40_block_too_small 3 _ N L) as (cut & E & B).
  exists 3%nat, [1; 2; 3; 4], cut. split; [exact N|]. split; [apply L|]. split; [exact E|exact B].
Qed.
Print Assumptions C40_block_size_refuted.
(* C40. Without scatter batches the X0s are None, and the classifier fails on them. *)
Theorem C40_no_scatters_refuted :
  exists g cdf pred_unc avgpool nz nx ny cut_coef offset coef frac,
  interact g cdf panel_efficiency pred_unc [Ask RPrediction] new_inf = [Ok ANone]
  /\ block_prediction avgpool nz nx ny cut_coef offset coef frac None = Err TypeErr.
Proof. exists (Grid 1 1 1 1 []), step_cdf, no_unc, true, 1%nat, 1%nat, 1%nat, 1, 0, 1, (1/2). split; reflexivity. Qed.
Print Assumptions C40_no_scatters_refuted.

(* C72. If the muons that can be used have total scatterings, angles and momenta within given ranges, every voxel gets an X0
   between those of the ends of the ranges. *)
Theorem C72_between :
  forall ls s m nx ny nz g cdf pred_unc, stack ls s m nx ny nz -> grid_of ls = Ok g -> is_cdf cdf ->
  forall bss a b t1 t2 c1 c2 a1 a2 b1 b2 p1 p2, bss <> [] -> (1 <= nx)%nat -> (1 <= ny)%nat ->
  (forall k, In k (concat bss) -> panels_of k (a k) (b k)) ->
  let kept := filter all_numbers (concat bss) in
  let eff k := prob_two (a k) * prob_two (b k) in
  (forall k, In k kept -> poca_unc_ok k) -> (exists k, In k kept /\ 0 < eff k) ->
  0 < t1 -> 0 < p1 -> 0 <= a1 -> a2 <= PI -> 0 <= b1 -> b2 <= PI -> c1 = (cos a2 + cos b2) / 2 -> c2 = (cos a1 + cos b1) / 2 -> 0 < c1 ->
  (forall k, In k kept -> 0 < eff k -> t1 <= num (k_tot k) <= t2 /\ a1 <= num (k_in k) <= a2 /\ b1 <= num (k_out k) <= b2 /\ p1 <= num (k_mom k) <= p2) ->
  exists xs, interact g cdf panel_efficiency pred_unc (scan bss) new_inf = [Ok (AVec (map Fin xs))] /\ List.length xs = (nx * ny * nz)%nat
  /\ Forall (fun x => x0_law s (t2 / sqrt 2) c2 p2 <= x <= x0_law s (t1 / sqrt 2) c1 p1) xs.
Proof. exact scan_between. Qed.
Print Assumptions C72_between.

(* C72. If all of them scattered by the leading-order width of one X0, every voxel gets that X0. *)
Theorem C72_exact :
  forall ls s m nx ny nz g cdf pred_unc bss a b tin tout p x0,
  stack ls s m nx ny nz -> grid_of ls = Ok g -> is_cdf cdf -> bss <> [] -> (1 <= nx)%nat -> (1 <= ny)%nat ->
  (forall k, In k (concat bss) -> panels_of k (a k) (b k)) ->
  let kept := filter all_numbers (concat bss) in
  let eff k := prob_two (a k) * prob_two (b k) in
  (forall k, In k kept -> poca_unc_ok k) -> (exists k, In k kept /\ 0 < eff k) ->
  0 < p -> 0 < x0 -> 0 <= tin <= PI -> 0 <= tout <= PI -> 0 < cos tin + cos tout ->
  (forall k, In k kept -> 0 < eff k -> num (k_tot k) = sqrt 2 * leading_width p (s / ((cos tin + cos tout) / 2)) x0
     /\ num (k_in k) = tin /\ num (k_out k) = tout /\ num (k_mom k) = p) ->
  interact g cdf panel_efficiency pred_unc (scan bss) new_inf = [Ok (AVec (repeat (Fin x0) (nx * ny * nz)))].
Proof. exact scan_exact. Qed.
Print Assumptions C72_exact.

(* a vertical muon of 2 GeV scattered as by 1/2 of X0, and one that could not be reconstructed *)
Definition half_muon : smuon := seen_muon (sqrt 2 * leading_width 2 (1 / ((cos 0 + cos 0) / 2)) (1/2)) 0 0 2.
Lemma seen_panels t a b p : panels_of (seen_muon t a b p) [1; 1] [1; 1].
Proof. split; [reflexivity|]. split; [reflexivity|]. cbn. split; [lia|]. split; [lia|]. unfold probability. split; repeat constructor; lra. Qed.
Lemma half_panels k : In k (concat [[half_muon]; [lost_muon; half_muon]]) -> panels_of k [1; 1] [1; 1].
Proof. cbn [concat app In]. intros [<-|[<-|[<-|[]]]]; try apply seen_panels. apply perfect. cbn [In]. auto. Qed.
Lemma half_kept : filter all_numbers (concat [[half_muon]; [lost_muon; half_muon]]) = [half_muon; half_muon].
Proof. reflexivity. Qed.
Lemma half_unc : poca_unc_ok half_muon.
Proof. unfold half_muon. generalize (sqrt 2 * leading_width 2 (1 / ((cos 0 + cos 0) / 2)) (1/2)). intro t. cbn. lra. Qed.
Example C72_case :
  exists g, grid_of two_layers = Ok g
  /\ interact g step_cdf panel_efficiency no_unc (scan [[half_muon]; [lost_muon; half_muon]]) new_inf = [Ok (AVec (repeat (Fin (1/2)) 6))].
Proof.
  destruct (grid_stack _ _ _ _ _ _ two_layers_stack) as (es & G & _). eexists. split; [exact G|].
  apply (C72_exact two_layers 1 2 3 1 2 _ _ _ _ (fun _ => [1; 1]) (fun _ => [1; 1]) 0 0 2 (1/2) two_layers_stack G step_is_cdf); try lia; try lra; try (pose proof PI_RGT_0; lra).
  - discriminate.
  - apply half_panels.
  - rewrite half_kept. intros k [<-|[<-|[]]]; apply half_unc.
  - rewrite half_kept. exists half_muon. split; [left; reflexivity|]. rewrite two_perfect. lra.
  - rewrite cos_0. lra.
  - rewrite half_kept. intros k [<-|[<-|[]]] _; repeat split.
Qed.

(* C73. If no muon can be used (none was reconstructed, or none had a chance of being seen) the prediction raises. *)
Theorem C73_nothing_left :
  forall ls s m nx ny nz g cdf pred_unc, stack ls s m nx ny nz -> grid_of ls = Ok g -> is_cdf cdf ->
  forall bss a b, bss <> [] -> (1 <= nx)%nat -> (1 <= ny)%nat ->
  (forall k, In k (concat bss) -> panels_of k (a k) (b k)) ->
  let kept := filter all_numbers (concat bss) in
  (forall k, In k kept -> poca_unc_ok k) -> (forall k, In k kept -> prob_two (a k) * prob_two (b k) = 0) ->
  interact g cdf panel_efficiency pred_unc (scan bss) new_inf = [Err ValueError].
Proof. exact scan_nothing. Qed.
Print Assumptions C73_nothing_left.
Theorem C73_none_refuted :
  exists g cdf pred_unc bss, grid_of two_layers = Ok g /\ filter all_numbers (concat bss) = []
  /\ interact g cdf panel_efficiency pred_unc (scan bss) new_inf = [Err ValueError].
Proof.
  destruct (grid_stack _ _ _ _ _ _ two_layers_stack) as (es & G & _). exists (Grid 3 1 2 1 es), step_cdf, no_unc, [[lost_muon]].
  split; [exact G|]. split; [reflexivity|].
  apply (C73_nothing_left two_layers 1 2 3 1 2 _ _ _ two_layers_stack G step_is_cdf [[lost_muon]] (fun _ => [1; 1]) (fun _ => [1; 1])); try lia; try discriminate.
  - intros k [<-|[]]. apply perfect. simpl; auto.
  - intros k [].
  - intros k [].
Qed.
Print Assumptions C73_none_refuted.

(* C74. One scatter batch without muons makes everything unreadable, whatever was added before or after. *)
Theorem C74_empty_batch :
  forall zr unc_of sb mus, sb_tracks sb = [] ->
  forall g cdf pred_unc a b bss bss', (forall k, In k (concat (bss ++ bss')) -> panels_of k (a k) (b k)) -> forall r,
  interact g cdf panel_efficiency pred_unc
    (map Add (map (fun ms => Ok (view ms)) bss ++ [view_of zr unc_of sb mus] ++ map (fun ms => Ok (view ms)) bss') ++ [Ask r]) new_inf = [Err TypeErr].
Proof. intros zr unc_of sb mus H. rewrite (empty_view zr unc_of sb mus H). exact empty_spoils. Qed.
Print Assumptions C74_empty_batch.
(* the two batches of C72_case would give a prediction *)
Theorem C74_robust_refuted :
  exists g zr unc_of sb, grid_of two_layers = Ok g
  /\ interact g step_cdf panel_efficiency no_unc (scan [[half_muon]; [lost_muon; half_muon]]) new_inf = [Ok (AVec (repeat (Fin (1/2)) 6))]
  /\ interact g step_cdf panel_efficiency no_unc
       [Add (Ok (view [half_muon])); Add (view_of zr unc_of sb []); Add (Ok (view [lost_muon; half_muon])); Ask RPrediction] new_inf = [Err TypeErr].
Proof.
  destruct C72_case as (g & G & H). exists g, (0, 1), (fun _ t => t), (SB [] 2 [] []). split; [exact G|]. split; [exact H|].
  exact (C74_empty_batch (0, 1) (fun _ t => t) (SB [] 2 [] []) [] eq_refl g step_cdf no_unc (fun _ => [1; 1]) (fun _ => [1; 1]) [[half_muon]] [[lost_muon; half_muon]] half_panels RPrediction).
Qed.
Print Assumptions C74_robust_refuted.
