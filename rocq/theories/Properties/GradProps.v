(* Property C100: uncertainties from gradients. *)
Require Import Reals Lra Lia.
From Verif Require Import Proofs.MuonBatchP Model.Grad Spec.MuonSpec Spec.VolumeSpec Spec.ScatterSpec Properties.ScatterProps Spec.GradSpec Proofs.GradP Proofs.EntryP Base.XR.
Open Scope R_scope.
Open Scope list_scope.

(* C100. A variable of the muons that depends, for each muon, on the hits of that muon only, with right gradients: the uncertainty of
   every component is the quadratic sum, over the numbers of the hits of that muon, of derivative times uncertainty.
   A derivative that is not known, like an infinite uncertainty, counts as 0. *)
Theorem C100_propagation :
  forall nv g f K hits uncs us vjp,
  Forall (fun h => List.length h = K) hits -> per_muon_var nv g f K (List.length hits) ->
  right_gradients (List.length hits * nv) f (concat hits) vjp ->
  Forall2 (fun row r => List.length r = K /\ Forall2 counted (flat_map l3 row) r) uncs us -> List.length uncs = List.length hits ->
  (0 < List.length hits)%nat -> (0 < nv)%nat ->
  exists out, out_var_unc vjp nv uncs = Ok out
  /\ List.length out = List.length hits
  /\ forall m c, (m < List.length hits)%nat -> (c < nv)%nat ->
     exists row ds, nth_error out m = Some row /\ List.length ds = K /\ nth_error row c = Some (Fin (quadrature ds (nth m us [])))
     /\ forall k, (k < K)%nat ->
        (has_gradient (List.length hits * nv) vjp (m * nv + c) (m * K + k) -> partial (g m c) (nth m hits []) k (nth k ds 0))
        /\ (~ has_gradient (List.length hits * nv) vjp (m * nv + c) (m * K + k) -> nth k ds 0 = 0).
Proof. exact propagation. Qed.
Print Assumptions C100_propagation.

(* C100. So other muons play no role: the same muon in two batches has the same uncertainties, where its gradients are known. *)
Theorem C100_own :
  forall nv K g f hits uncs us vjp out m g' f' hits' uncs' us' vjp' out' m' c,
  Forall (fun h => List.length h = K) hits -> per_muon_var nv g f K (List.length hits) ->
  right_gradients (List.length hits * nv) f (concat hits) vjp ->
  Forall2 (fun row r => List.length r = K /\ Forall2 counted (flat_map l3 row) r) uncs us -> List.length uncs = List.length hits ->
  Forall (fun h => List.length h = K) hits' -> per_muon_var nv g' f' K (List.length hits') ->
  right_gradients (List.length hits' * nv) f' (concat hits') vjp' ->
  Forall2 (fun row r => List.length r = K /\ Forall2 counted (flat_map l3 row) r) uncs' us' -> List.length uncs' = List.length hits' ->
  (m < List.length hits)%nat -> (m' < List.length hits')%nat -> (c < nv)%nat ->
  (forall h, g m c h = g' m' c h) -> nth m hits [] = nth m' hits' [] -> nth m us [] = nth m' us' [] ->
  (forall k, (k < K)%nat -> has_gradient (List.length hits * nv) vjp (m * nv + c) (m * K + k)
                         /\ has_gradient (List.length hits' * nv) vjp' (m' * nv + c) (m' * K + k)) ->
  out_var_unc vjp nv uncs = Ok out -> out_var_unc vjp' nv uncs' = Ok out' ->
  nth c (nth m out []) NaN = nth c (nth m' out' []) NaN /\ exists r, nth c (nth m out []) NaN = Fin r /\ 0 <= r.
Proof.
  intros nv K g f hits uncs us vjp out m g' f' hits' uncs' us' vjp' out' m' c F P G U L F' P' G' U' L' Hm Hm' Hc Eg Eh Eu D E E'.
  destruct (propagation nv g f K hits uncs us vjp F P G U L ltac:(lia) ltac:(lia)) as (o & Eo & _ & S). rewrite E in Eo. injection Eo as <-.
  destruct (propagation nv g' f' K hits' uncs' us' vjp' F' P' G' U' L' ltac:(lia) ltac:(lia)) as (o & Eo & _ & S'). rewrite E' in Eo. injection Eo as <-.
  destruct (S m c Hm Hc) as (row & ds & Er & Ld & Ec & Q). destruct (S' m' c Hm' Hc) as (row' & ds' & Er' & Ld' & Ec' & Q').
  rewrite (nth_error_nth _ _ [] Er), (nth_error_nth _ _ [] Er'), (nth_error_nth _ _ NaN Ec), (nth_error_nth _ _ NaN Ec').
  assert (Ed : ds = ds').
  { apply (derivs_unique (g m c) (nth m hits [])); [lia|]. intros k Hk. rewrite Ld in Hk. destruct (D k Hk) as [D1 D2]. split; [apply Q; assumption|].
    rewrite Eh. refine (partial_ext _ _ _ _ _ _ (proj1 (Q' k Hk) D2)). intros t. symmetry. apply Eg. }
  rewrite Ed, Eu. split; [reflexivity|]. eexists. split; [reflexivity|]. apply quad_nonneg.
Qed.
Print Assumptions C100_own.

(* C100. The quadratic sum: at least every single contribution, at most their sum; twice the uncertainties, twice the result; larger
   uncertainties, a result that is not smaller. *)
Theorem C100_quadrature :
  forall ds us, List.length ds = List.length us ->
  (forall k, (k < List.length ds)%nat -> Rabs (nth k ds 0 * nth k us 0) <= quadrature ds us)
  /\ quadrature ds us <= Rsum (map2 (fun d u => Rabs (d * u)) ds us)
  /\ (forall k, 0 <= k -> quadrature ds (map (Rmult k) us) = k * quadrature ds us)
  /\ forall us', Forall2 (fun u u' => Rabs u <= Rabs u') us us' -> quadrature ds us <= quadrature ds us'.
Proof.
  intros ds us L. split; [intros k Hk; apply quad_ge; lia|]. split; [apply quad_le|]. split; [intros k Hk; apply quad_scale; exact Hk|]. intros us'. apply quad_mono.
Qed.
Print Assumptions C100_quadrature.

(* C100. Two panels above at different heights z0 and z1, with weights for both hits: the uncertainty of the point where the track reaches the
   top z of the volume is that of the extrapolated straight line, for x and y alike.  Hits below, heights, and the widths that the
   fit is weighted with play no role. *)
Theorem C100_entry :
  forall lw zr w0x w0y w0z w1x w1y w1z (g : nat -> nat -> list R -> R) f K hits uncs us vjp m x0 y0 z0 x1 y1 z1 rest u0x u0y u1x u1y ur,
  Forall (fun h => List.length h = K) hits -> per_muon_var 3 g f K (List.length hits) ->
  right_gradients (List.length hits * 3) f (concat hits) vjp ->
  Forall2 (fun row r => List.length r = K /\ Forall2 counted (flat_map l3 row) r) uncs us -> List.length uncs = List.length hits ->
  (m < List.length hits)%nat ->
  nth m hits [] = x0 :: y0 :: z0 :: x1 :: y1 :: z1 :: rest -> z0 <> z1 ->
  nth m us [] = u0x :: u0y :: 0 :: u1x :: u1y :: 0 :: ur ->
  weight_ok w0x /\ weight_ok w0y /\ weight_ok w1x /\ weight_ok w1y ->
  (forall ws, ws = [V3 (Fin w0x) (Fin w0y) w0z; V3 (Fin w1x) (Fin w1y) w1z] -> entry_x lw zr ws (g m 0%nat) /\ entry_y lw zr ws (g m 1%nat)) ->
  (forall k, In k [0; 1; 3; 4]%nat -> forall c, (c < 2)%nat -> has_gradient (List.length hits * 3) vjp (m * 3 + c) (m * K + k)) ->
  exists out row, out_var_unc vjp 3 uncs = Ok out /\ nth_error out m = Some row
  /\ nth_error row 0 = Some (Fin (sqrt (((z1 - snd zr) / (z1 - z0) * u0x) ^ 2 + ((snd zr - z0) / (z1 - z0) * u1x) ^ 2)))
  /\ nth_error row 1 = Some (Fin (sqrt (((z1 - snd zr) / (z1 - z0) * u0y) ^ 2 + ((snd zr - z0) / (z1 - z0) * u1y) ^ 2))).
Proof.
  intros lw zr w0x w0y w0z w1x w1y w1z g f K hits uncs us vjp m x0 y0 z0 x1 y1 z1 rest u0x u0y u1x u1y ur F P G U L Hm Eh Hz Eu W E D.
  destruct (propagation 3 g f K hits uncs us vjp F P G U L ltac:(lia) ltac:(lia)) as (out & Eo & _ & S).
  assert (LK : List.length (nth m hits []) = K) by (apply (proj1 (Forall_forall _ _) F), nth_In; exact Hm).
  destruct (S m 0%nat Hm ltac:(lia)) as (row & ds & Er & Ld & Ec & Q). destruct (S m 1%nat Hm ltac:(lia)) as (row' & ds' & Er' & Ld' & Ec' & Q').
  rewrite Er in Er'. injection Er' as <-. destruct (E _ eq_refl) as [Ex Ey]. exists out, row. split; [exact Eo|]. split; [exact Er|].
  rewrite Ec, Ec'. rewrite Eh in Q, Q', LK. split; f_equal; f_equal.
  - eapply (entry_x_unc lw zr w0x w0y w1x w1y w0z w1z (g m 0%nat) W z0 z1 Hz x0 y0 x1 y1 rest ds (nth m us [])
      (fun k => has_gradient (List.length hits * 3) vjp (m * 3 + 0) (m * K + k))).
    + intros k. apply has_gradient_dec.
    + exact Eu.
    + rewrite LK. exact Ld.
    + rewrite LK. exact Q.
    + exact Ex.
    + apply (D 0%nat ltac:(cbn; tauto) 0%nat). lia.
    + apply (D 3%nat ltac:(cbn; tauto) 0%nat). lia.
  - eapply (entry_y_unc lw zr w0x w0y w1x w1y w0z w1z (g m 1%nat) W z0 z1 Hz x0 y0 x1 y1 rest ds' (nth m us [])
      (fun k => has_gradient (List.length hits * 3) vjp (m * 3 + 1) (m * K + k))).
    + intros k. apply has_gradient_dec.
    + exact Eu.
    + rewrite LK. exact Ld'.
    + rewrite LK. exact Q'.
    + exact Ey.
    + apply (D 1%nat ltac:(cbn; tauto) 1%nat). lia.
    + apply (D 4%nat ltac:(cbn; tauto) 1%nat). lia.
Qed.
Print Assumptions C100_entry.

(* C100. The X0s: the quadratic sum over all variables of all muons. *)
Theorem C100_x0 :
  forall f x uncs us vjp n, right_gradients n f x vjp -> (0 < n)%nat ->
  Forall2 counted (concat uncs) us -> List.length us = List.length x ->
  exists out, x0_pred_uncs vjp n uncs = Ok out /\ List.length out = n
  /\ forall a, (a < n)%nat -> exists ds, List.length ds = List.length x /\ nth_error out a = Some (Fin (quadrature ds us))
     /\ forall b, (b < List.length x)%nat ->
        (has_gradient n vjp a b -> partial (f a) x b (nth b ds 0)) /\ (~ has_gradient n vjp a b -> nth b ds 0 = 0).
Proof. exact x0_propagation. Qed.
Print Assumptions C100_x0.

(* C100. No muons: TypeError. *)
Theorem C100_no_muons : forall vjp nv, out_var_unc vjp nv [] = Err TypeErr.
Proof. intros. reflexivity. Qed.
Print Assumptions C100_no_muons.

(* C100. Refuted: uncertainties of a scatter batch of true hits always raise AttributeError. *)
Theorem C100_true_hits_fail : forall vjp nv uncs, uncs <> [] -> (0 < nv)%nat -> out_var_unc (grad_reco true vjp) nv uncs = Err AttributeError.
Proof.
  intros vjp nv uncs N Hv. unfold out_var_unc, clean_jacobian, jacobian. destruct uncs as [|u uncs]; [contradiction|].
  destruct nv as [|nv]; [lia|]. reflexivity.
Qed.
Print Assumptions C100_true_hits_fail.
Theorem C100_true_hits_refuted : exists vjp nv uncs, uncs <> [] /\ out_var_unc (grad_reco true vjp) nv uncs = Err AttributeError.
Proof. exists (fun v => map Fin v), 1%nat, [[V3 (Fin 1) (Fin 1) (Fin 1)]]. split; [discriminate|]. apply C100_true_hits_fail; [discriminate|lia]. Qed.
Print Assumptions C100_true_hits_refuted.

(* one muon with one hit, the variable is the x of the hit *)
Definition first_x (a : nat) (x : list R) : R := nth 0 x 0.
Definition first_x_grad (v : list R) : option (list xr) := Some [Fin 1; Fin 0; Fin 0].
Lemma first_x_right x y z : right_gradients 1 first_x [x; y; z] first_x_grad.
Proof.
  intros a Ha. eexists. split; [reflexivity|]. split; [reflexivity|]. intros b Hb. right. cbn in Hb.
  assert (C : forall k, (k = 1 \/ k = 2)%nat -> partial (first_x a) [x; y; z] k 0).
  { intros k Hk. unfold partial. assert (E : forall t, t * 0 + x = first_x a (set_at k t [x; y; z])) by (intros t; destruct Hk as [-> | ->]; unfold first_x, set_at; cbn; ring).
    exact (derivable_ext' _ _ _ _ E (linear_derivative 0 x _)). }
  destruct b as [|[|[|b]]]; [|exists 0; split; [reflexivity|apply C; lia]|exists 0; split; [reflexivity|apply C; lia]|lia].
  exists 1. split; [reflexivity|]. assert (E : forall t, t * 1 + 0 = first_x a (set_at 0 t [x; y; z])) by (intros t; unfold first_x, set_at; cbn; ring).
  exact (derivable_ext' _ _ _ _ E (linear_derivative 1 0 _)).
Qed.
(* C100. Refuted: a hit of infinite uncertainty gives less uncertainty than one of uncertainty 1. *)
Theorem C100_infinite_refuted :
  exists vjp f hits, right_gradients 1 f (concat hits) vjp
  /\ out_var_unc vjp 1 [[V3 (Fin 1) (Fin 1) (Fin 0)]] = Ok [[Fin 1]] /\ out_var_unc vjp 1 [[V3 PInf (Fin 1) (Fin 0)]] = Ok [[Fin 0]].
Proof.
  exists first_x_grad, first_x, [[5; 6; 7]]. split; [apply first_x_right|].
  assert (Q : forall u, propagate [Fin 1; Fin 0; Fin 0] [Fin u; Fin 1; Fin 0] = Fin (quadrature [1; 0; 0] [u; 1; 0])).
  { intros u. exact (propagate_fin [1; 0; 0] [u; 1; 0]). }
  assert (S : sum_muons 1 3 (map nan_to_num [Fin 1; Fin 0; Fin 0]) = [Fin 1; Fin 0; Fin 0]).
  { unfold sum_muons. cbn. rewrite !Rplus_0_r. reflexivity. }
  split; unfold out_var_unc; cbn [clean_jacobian jacobian List.length Nat.mul Nat.add Nat.eqb mapM seq first_x_grad bind map flat_map l3 app vx vy vz];
    unfold parts; cbn [map seq firstn skipn Nat.mul map2 List.length]; unfold no_inf; cbn [xisinf List.length].
  - change (sum_muons 1 3 ?r) with (sum_muons 1 3 (map nan_to_num [Fin 1; Fin 0; Fin 0])). rewrite S, Q. unfold quadrature. cbn [map2 Rsum].
    replace (1 * 1 * (1 * 1) + (0 * 1 * (0 * 1) + (0 * 0 * (0 * 0) + 0))) with 1 by ring. rewrite sqrt_1. reflexivity.
  - change (sum_muons 1 3 ?r) with (sum_muons 1 3 (map nan_to_num [Fin 1; Fin 0; Fin 0])). rewrite S, Q. unfold quadrature. cbn [map2 Rsum].
    replace (1 * 0 * (1 * 0) + (0 * 1 * (0 * 1) + (0 * 0 * (0 * 0) + 0))) with 0 by ring. rewrite sqrt_0. reflexivity.
Qed.
Print Assumptions C100_infinite_refuted.

(* C100. No muon of a scatter batch has such a hit, though: they were removed. *)
Theorem C100_none_infinite :
  forall gen lw zr (b b' : batch (list xr)) sb, hits_ok (list xr) (List.length (b_muons b)) (b_hits b) ->
  scatter_batch gen lw zr b = Ok (b', sb) ->
  forall m u, In m (sb_hits sb) -> In u (hit_uncs gen m) -> vx u <> PInf /\ vy u <> PInf.
Proof.
  intros gen lw zr b b' sb H E m u Im Iu. destruct (C28_kept_muons gen lw zr b b' sb H E) as (na & hs & ts & keep & d & _ & _ & _ & _ & _ & _ & _ & _ & _ & _ & L1 & L2 & L3 & S).
  apply In_nth_error in Im. destruct Im as [i Ei]. assert (Li : (i < List.length (sb_hits sb))%nat) by (apply nth_error_Some; congruence).
  destruct (nth_error (sb_tracks sb) i) as [t|] eqn:Et; [|apply nth_error_None in Et; lia].
  destruct (nth_error (sb_coefs sb) i) as [c|] eqn:Ec; [|apply nth_error_None in Ec; lia].
  destruct (S i m t c Ei Et Ec) as (_ & _ & _ & (v1 & p1 & v2 & p2 & _ & _ & _ & _ & _ & _ & U) & _). destruct (U u Iu) as [A B].
  split; intros X; rewrite X in *; discriminate.
Qed.
Print Assumptions C100_none_infinite.

(* The entry point of one muon seen by two panels, at heights 4 and 3 above a volume with its top at 2: the gradient with respect to heights
   is left open. *)
Definition entry_point (h : list R) (c : nat) : R :=
  match trajectory (1, 1) (firstn 2 (as_hits h)) [V3 (Fin 1) (Fin 1) (Fin 0); V3 (Fin 1) (Fin 1) (Fin 0)] with
  | Ok t => match nth c (l3 (xyz_in1 (0, 2) t)) NaN with Fin x => x | _ => 0 end
  | Err _ => 0
  end.
Definition entry_grad (v : list R) : option (list xr) :=
  if Reqb (nth 0 v 0) 1 then Some [Fin (-1); Fin 0; NaN; Fin 2; Fin 0; NaN]
  else if Reqb (nth 1 v 0) 1 then Some [Fin 0; Fin (-1); NaN; Fin 0; Fin 2; NaN] else Some [NaN; NaN; NaN; NaN; NaN; NaN].
Definition entry_hits (x0 y0 x1 y1 : R) : list R := [x0; y0; 4; x1; y1; 3].
Lemma entry_at x0 y0 x1 y1 : entry_point (entry_hits x0 y0 x1 y1) 0 = x0 * -1 + x1 * 2 /\ entry_point (entry_hits x0 y0 x1 y1) 1 = y0 * -1 + y1 * 2.
Proof.
  assert (W : weight_ok 1). { split; [lra|]. pose proof (Rlt_pow 2 0 75 ltac:(lra) ltac:(lia)). simpl in H. lra. }
  unfold entry_point, entry_hits. cbn [as_hits firstn]. rewrite (two_panel_track (1, 1) x0 y0 4 x1 y1 3 1 1 (Fin 0) 1 1 (Fin 0)) by (assumption || lra).
  rewrite two_panel_entry by lra. cbn [l3 fv nth vx vy vz]. cbn [snd]. split; field.
Qed.
Lemma entry_right : right_gradients 3 (fun a h => entry_point h a) (entry_hits 0 0 1 1) entry_grad.
Proof.
  assert (Z : Reqb 0 1 = false) by (apply Reqb_false; lra). assert (O : Reqb 1 1 = true) by (apply Reqb_true; reflexivity).
  intros a Ha. destruct a as [|[|[|a]]]; [| | |lia]; unfold entry_grad, unit_row; cbn [map seq Nat.eqb nth]; rewrite ?Z, ?O; eexists; (split; [reflexivity|]); (split; [reflexivity|]);
    intros b Hb; cbn in Hb; (destruct b as [|[|[|[|[|[|b]]]]]]; [| | | | | |lia]); cbn [nth]; try (left; reflexivity); right; eexists; (split; [reflexivity|]); unfold partial, entry_hits, set_at; cbn [nth firstn skipn app].
  - refine (derivable_ext' _ _ _ _ _ (linear_derivative (-1) (1 * 2) _)). intros t. symmetry. apply entry_at.
  - refine (derivable_ext' _ _ _ _ _ (linear_derivative 0 (0 * -1 + 1 * 2) _)). intros t. pose proof (proj1 (entry_at 0 t 1 1)) as E. unfold entry_hits in E. rewrite E. ring.
  - refine (derivable_ext' _ _ _ _ _ (linear_derivative 2 (0 * -1) _)). intros t. pose proof (proj1 (entry_at 0 0 t 1)) as E. unfold entry_hits in E. rewrite E. ring.
  - refine (derivable_ext' _ _ _ _ _ (linear_derivative 0 (0 * -1 + 1 * 2) _)). intros t. pose proof (proj1 (entry_at 0 0 1 t)) as E. unfold entry_hits in E. rewrite E. ring.
  - refine (derivable_ext' _ _ _ _ _ (linear_derivative 0 (0 * -1 + 1 * 2) _)). intros t. pose proof (proj2 (entry_at t 0 1 1)) as E. unfold entry_hits in E. rewrite E. ring.
  - refine (derivable_ext' _ _ _ _ _ (linear_derivative (-1) (1 * 2) _)). intros t. symmetry. apply entry_at.
  - refine (derivable_ext' _ _ _ _ _ (linear_derivative 0 (0 * -1 + 1 * 2) _)). intros t. pose proof (proj2 (entry_at 0 0 t 1)) as E. unfold entry_hits in E. rewrite E. ring.
  - refine (derivable_ext' _ _ _ _ _ (linear_derivative 2 (0 * -1) _)). intros t. pose proof (proj2 (entry_at 0 0 1 t)) as E. unfold entry_hits in E. rewrite E. ring.
Qed.
Example C100_case :
  exists out row, out_var_unc entry_grad 3 [[V3 (Fin 3) (Fin 1) (Fin 0); V3 (Fin 2) (Fin 1) (Fin 0)]] = Ok out /\ nth_error out 0 = Some row
  /\ nth_error row 0 = Some (Fin 5) /\ nth_error row 1 = Some (Fin (sqrt 5)).
Proof.
  assert (W : weight_ok 1). { split; [lra|]. pose proof (Rlt_pow 2 0 75 ltac:(lra) ltac:(lia)). simpl in H. lra. }
  destruct (C100_entry (1, 1) (0, 2) 1 1 (Fin 0) 1 1 (Fin 0) (fun _ c h => entry_point h c) (fun a h => entry_point h a) 6 [entry_hits 0 0 1 1]
    [[V3 (Fin 3) (Fin 1) (Fin 0); V3 (Fin 2) (Fin 1) (Fin 0)]] [[3; 1; 0; 2; 1; 0]] entry_grad 0 0 0 4 1 1 3 [] 3 1 2 1 []) as (out & row & A & B & C & D).
  - constructor; [reflexivity|constructor].
  - intros hs m c L _ Hm Hc. cbn in Hm, L. destruct hs as [|h [|]]; try discriminate. assert (m = 0)%nat as -> by lia. cbn. rewrite app_nil_r. reflexivity.
  - exact entry_right.
  - constructor; [|constructor]. split; [reflexivity|]. cbn. repeat (apply Forall2_cons; [left; reflexivity|]). constructor.
  - reflexivity.
  - cbn. lia.
  - reflexivity.
  - lra.
  - reflexivity.
  - tauto.
  - intros ws ->. split; intros h t x E V; unfold entry_point; rewrite E; cbn [nth l3]; rewrite V; reflexivity.
  - assert (Z : Reqb 0 1 = false) by (apply Reqb_false; lra). assert (O : Reqb 1 1 = true) by (apply Reqb_true; reflexivity).
    intros k Hk c Hc. unfold has_gradient. cbn [List.length Nat.mul Nat.add]. unfold entry_grad, unit_row.
    destruct c as [|[|c]]; [| |lia]; cbn [map seq Nat.eqb nth]; rewrite ?Z, ?O; destruct Hk as [<-|[<-|[<-|[<-|[]]]]]; do 2 eexists; split; reflexivity.
  - exists out, row. split; [exact A|]. split; [exact B|]. split; [rewrite C|rewrite D]; cbn [snd]; f_equal; f_equal.
    + replace (((3 - 2) / (3 - 4) * 3) ^ 2 + ((2 - 4) / (3 - 4) * 2) ^ 2) with (5 * 5) by field. apply sqrt_square. lra.
    + f_equal. field.
Qed.
