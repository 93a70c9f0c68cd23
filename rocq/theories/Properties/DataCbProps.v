(* Properties C52 (resampling of muons) and C55 (layers of recorded scatters). *)
From Coq Require Import Reals Lra Lia List Bool.
From Verif Require Import Model.DataCb Spec.DataCbSpec Proofs.DataCbP.
Import ListNotations.
Open Scope R_scope.
Open Scope list_scope.

(* C52. When resampling ends, it has not raised; every muon crosses the passive volume, stays at its height,
   and is either the one given or a generated one.  Those that enter a passive layer from above are the ones given, in place. *)
Theorem C52_sound :
  forall ls lx ly h gen fuel ms out,
  covers ls lx ly -> vol_h ls = Ok h -> (forall L, In L (passives ls) -> 0 <= pl_size L) ->
  (forall k n, length (gen k n) = n /\ Forall flies (gen k n)) ->
  Forall (fun u => flies (row_of u)) ms ->
  resampler ls gen fuel ms = Some out ->
  exists ms', out = Ok ms' /\ length ms' = length ms
    /\ forall i u, nth_error ms i = Some u -> exists u', nth_error ms' i = Some u'
         /\ mz u' = mz u /\ crosses lx ly h ls (row_of u')
         /\ (enters lx ly h ls (row_of u) -> u' = u)
         /\ (u' = u \/ exists k n, In (row_of u') (gen k n)).
Proof.
  intros ls lx ly h gen fuel ms out C Hh Sz G F E. unfold resampler in E.
  destruct (resample ls gen fuel 0 (repeat false (length ms)) (map row_of ms)) as [o|] eqn:R; [|discriminate].
  apply (resample_spec ls lx ly h gen C Hh G) in R.
  2: { rewrite repeat_length, map_length. reflexivity. }
  2: { apply Forall_forall. intros r I. apply in_map_iff in I as (u & <- & I). rewrite Forall_forall in F. apply F, I. }
  2: { intros i r X. apply nth_error_In, repeat_spec in X. discriminate. }
  destruct R as (rows & -> & Hl & S1 & S2). injection E as <-. rewrite map_length in Hl.
  exists (map2 put_row ms rows). split; [reflexivity|]. split; [rewrite map2_length; lia|].
  intros i u Eu.
  assert (nth_error (repeat false (length ms)) i = Some false) as Er.
  { destruct (nth_some ms (repeat false (length ms)) i u ltac:(rewrite repeat_length; reflexivity) Eu) as [b Eb].
    rewrite Eb. apply nth_error_In, repeat_spec in Eb. congruence. }
  destruct (S2 i false (row_of u) Er (map_nth_error row_of i ms Eu)) as (r' & E' & K & W).
  assert (row_of (put_row u r') = r') as RP by (destruct r' as [[[[x y] p] th] ph]; reflexivity).
  assert (r' = row_of u -> put_row u r' = u) as Same by (intros ->; destruct u; reflexivity).
  destruct (S1 i r' E') as [Fr Pr].
  exists (put_row u r'). split; [apply nth_map2; auto|]. rewrite RP. split; [destruct r' as [[[[x y] p] th] ph]; reflexivity|].
  split; [|split].
  - apply (pass_enters ls lx ly h r' Fr) in Pr as (L & I & O). exists L, (pl_z L). split; [exact I|]. split; [|exact O]. specialize (Sz L I). lra.
  - intro En. apply Same, K. cbn [orb]. apply pass_enters; [|exact En]. rewrite Forall_forall in F. apply F. eapply nth_error_In; eauto.
  - destruct W as [->|W]; [left; destruct u; reflexivity|right; exact W].
Qed.
Print Assumptions C52_sound.

(* C52. If the generator once gives only muons that enter a passive layer from above, resampling ends. *)
Theorem C52_ends :
  forall ls lx ly h gen k0 ms,
  covers ls lx ly -> vol_h ls = Ok h ->
  (forall k n, length (gen k n) = n /\ Forall flies (gen k n)) -> (forall n, Forall (enters lx ly h ls) (gen k0 n)) ->
  Forall (fun u => flies (row_of u)) ms ->
  resampler ls gen (S (S k0)) ms <> None.
Proof.
  intros ls lx ly h gen k0 ms C Hh G P F E. unfold resampler in E.
  destruct (resample ls gen (S (S k0)) 0 (repeat false (length ms)) (map row_of ms)) as [[|]|] eqn:R; try discriminate.
  revert R. apply (resample_ends ls lx ly h gen C Hh G k0).
  - intro n. apply Forall_forall. intros r I. specialize (P n). rewrite Forall_forall in P.
    apply pass_enters; [|apply P, I]. destruct (G k0 n) as [_ Fg]. rewrite Forall_forall in Fg. apply Fg, I.
  - reflexivity.
  - rewrite repeat_length, map_length. reflexivity.
  - apply Forall_forall. intros r I. apply in_map_iff in I as (u & <- & I). rewrite Forall_forall in F. apply F, I.
Qed.
Print Assumptions C52_ends.

(* C52. In a volume without passive layers it never ends. *)
Theorem C52_never :
  forall ls h gen fuel u ms,
  passives ls = [] -> vol_h ls = Ok h -> (forall k n, length (gen k n) = n /\ Forall flies (gen k n)) ->
  Forall (fun u => flies (row_of u)) (u :: ms) ->
  resampler ls gen fuel (u :: ms) = None.
Proof.
  intros ls h gen fuel u ms N Hh G F. unfold resampler.
  rewrite (resample_never ls 0 0 h gen); auto.
  - intros L I. rewrite N in I. destruct I.
  - rewrite repeat_length, map_length. reflexivity.
  - apply Forall_forall. intros r I. apply in_map_iff in I as (v & <- & I). rewrite Forall_forall in F. apply F, I.
  - rewrite map_length. assert (forall n, count_true (repeat false n) = 0%nat) as X by (induction n; auto). rewrite X. cbn. lia.
Qed.
Print Assumptions C52_never.

(* one layer of 1 m in each direction, and a generator of vertical muons that enter it *)
Definition one_layer : list layer := [LPass (Passive 1 1 1 1 1 None "pdg"%string)].
Definition vertical : row5 := (Fin (1/4), Fin (1/4), Fin 5, Fin 0, Fin 0).
Definition gen_vertical (k n : nat) : list row5 := repeat vertical n.
Definition mu_in : muon := Mu (Fin (1/2)) (Fin (1/2)) (Fin 1) (Fin 5) (Fin 0) (Fin 0).
(* flies through the side of the layer: over it from z = 1/2 downwards *)
Definition mu_side : muon := Mu (Fin (-1/2)) (Fin (1/2)) (Fin 1) (Fin 5) (Fin (PI / 4)) (Fin 0).

Lemma one_covers : covers one_layer 1 1.
Proof. intros L [<-|[]]. split; reflexivity. Qed.
Lemma vertical_flies : flies vertical.
Proof. exists (1/4), (1/4), 0, 0, (Fin 5). pose proof PI_RGT_0. split; [reflexivity|lra]. Qed.
Lemma gen_ok k n : length (gen_vertical k n) = n /\ Forall flies (gen_vertical k n).
Proof.
  unfold gen_vertical. split; [apply repeat_length|]. apply Forall_forall. intros r I. apply repeat_spec in I as ->. apply vertical_flies.
Qed.
Lemma vertical_over x y p : 0 <= x < 1 -> 0 <= y < 1 -> over_at 1 1 1 (Fin x, Fin y, p, Fin 0, Fin 0) 1.
Proof.
  intros X Y. exists x, y, 0, 0. pose proof PI_RGT_0. split; [exists p; split; [reflexivity|lra]|]. split; lra.
Qed.
Lemma vertical_enters n : Forall (enters 1 1 1 one_layer) (gen_vertical 0 n).
Proof.
  apply Forall_forall. intros r I. apply repeat_spec in I as ->. eexists. split; [left; reflexivity|]. apply vertical_over; lra.
Qed.
Lemma both_fly : Forall (fun u => flies (row_of u)) [mu_in; mu_side].
Proof.
  pose proof PI_RGT_0. repeat constructor.
  - exists (1/2), (1/2), 0, 0, (Fin 5). split; [reflexivity|lra].
  - exists (-1/2), (1/2), (PI/4), 0, (Fin 5). split; [reflexivity|lra].
Qed.
Lemma side_crosses : crosses 1 1 1 one_layer (row_of mu_side).
Proof.
  eexists _, (1/4). split; [left; reflexivity|]. cbn [pl_z pl_size]. split; [lra|].
  exists (-1/2), (1/2), (PI/4), 0. pose proof PI_RGT_0. split; [exists (Fin 5); split; [reflexivity|lra]|].
  rewrite tan_PI4, cos_0, sin_0. split; lra.
Qed.
Lemma side_not_enters : ~ enters 1 1 1 one_layer (row_of mu_side).
Proof.
  intros (L & [<-|[]] & x & y & th & ph & (p & E & _) & [X _] & _). injection E as <- <- _ <- <-. cbn [pl_z] in X. lra.
Qed.

(* C52 is false: a muon that enters the passive volume through a side below the top of the lowest layer is replaced. *)
Theorem C52_complete_refuted :
  exists ls lx ly h gen fuel u ms',
  covers ls lx ly /\ vol_h ls = Ok h /\ (forall k n, length (gen k n) = n /\ Forall flies (gen k n)) /\ flies (row_of u)
  /\ crosses lx ly h ls (row_of u) /\ resampler ls gen fuel [u] = Some (Ok ms') /\ ms' <> [u].
Proof.
  pose proof both_fly as F. inversion F as [|? ? _ F']; subst. 
  destruct (resampler one_layer gen_vertical 2 [mu_side]) as [out|] eqn:E.
  2: { exfalso. revert E. apply (C52_ends one_layer 1 1 1); auto using one_covers, gen_ok, vertical_enters. }
  pose proof E as E'. apply (C52_sound one_layer 1 1 1) in E'; auto using one_covers, gen_ok.
  2: { intros L [<-|[]]. cbn. lra. }
  destruct E' as (ms' & -> & Hl & Q). exists one_layer, 1, 1, 1, gen_vertical, 2%nat, mu_side, ms'.
  split; [apply one_covers|]. split; [reflexivity|]. split; [apply gen_ok|]. split; [inversion F'; auto|]. split; [apply side_crosses|]. split; [exact E|].
  intros ->.
  unfold resampler in E. destruct (resample one_layer gen_vertical 2 0 (repeat false (length [mu_side])) (map row_of [mu_side])) as [o|] eqn:R; [|discriminate].
  apply (resample_spec one_layer 1 1 1 gen_vertical one_covers eq_refl gen_ok) in R; auto.
  2: { repeat constructor. inversion F'; auto. }
  2: { intros [|[|i]] r X; discriminate. }
  destruct R as (rows & -> & Hr & S1 & _). injection E as E. destruct rows as [|r rows]; [discriminate|].
  destruct (S1 0%nat r eq_refl) as [Fr Pr]. apply pass_enters in Pr; auto. apply side_not_enters.
  cbn [map2] in E. assert (put_row mu_side r = mu_side) as E1 by congruence. rewrite <- E1. destruct r as [[[[x y] p] th] ph]. exact Pr.
Qed.
Print Assumptions C52_complete_refuted.

(* the first muon stays, the second one is replaced *)
Example C52_case :
  exists ms', resampler one_layer gen_vertical 2 [mu_in; mu_side] = Some (Ok ms') /\ nth_error ms' 0 = Some mu_in /\ length ms' = 2%nat.
Proof.
  destruct (resampler one_layer gen_vertical 2 [mu_in; mu_side]) as [out|] eqn:E.
  2: { exfalso. revert E. apply (C52_ends one_layer 1 1 1); auto using one_covers, gen_ok, vertical_enters, both_fly. }
  apply (C52_sound one_layer 1 1 1) in E; auto using one_covers, gen_ok, both_fly.
  2: { intros L [<-|[]]. cbn. lra. }
  destruct E as (ms' & -> & Hl & Q). exists ms'. split; [reflexivity|]. split; [|exact Hl].
  destruct (Q 0%nat mu_in eq_refl) as (u' & E' & _ & _ & K & _). rewrite E'. f_equal. apply K.
  eexists. split; [left; reflexivity|]. apply vertical_over; lra.
Qed.

(* C55. For a stack of passive layers: the number recorded for a scatter at z is that of the layer which contains z + (up + dw - h),
   with the passive volume between dw and up and the top of the whole volume at h. *)
Theorem C55_shifted :
  forall ls up s n h z k,
  stacked ls up s n -> vol_h ls = Ok h ->
  (scatter_layer ls z = Ok (Some k) <-> in_layer ls k (z + (up + (up - INR n * s) - h))).
Proof.
  intros ls up s n h z k St Hh. pose proof St as (Hs & Hn & Hp & _).
  rewrite (in_layer_iff ls up s n k _ St).
  unfold scatter_layer. rewrite (stacked_range ls up s n St), Hh. cbn [bind]. rewrite Hn. unfold linspace.
  assert (INR n <> 0) as N0 by (apply not_0_INR; lia).
  replace ((up - (up - INR n * s)) / INR n) with s by (field; auto).
  pose proof (cut_spec (up - INR n * s) s Hs (h - z) k n 0) as X.
  split.
  - intro E. injection E as E. apply X in E as [H1 H2]. split; [lia|]. lra.
  - intros [H1 H2]. f_equal. apply X. split; [lia|]. lra.
Qed.
Print Assumptions C55_shifted.
(* C55. It is the layer of the scatter if there is as much space above the passive volume as between it and the ground. *)
Theorem C55_symmetric :
  forall ls up s n h z k,
  stacked ls up s n -> vol_h ls = Ok h -> h - up = up - INR n * s ->
  (scatter_layer ls z = Ok (Some k) <-> in_layer ls k z).
Proof.
  intros ls up s n h z k St Hh E. rewrite (C55_shifted ls up s n h z k St Hh).
  replace (z + (up + (up - INR n * s) - h)) with z by lra. tauto.
Qed.
Print Assumptions C55_symmetric.
(* C55 is false otherwise: two layers between 0 and 2 and a detector above them, of height 1. *)
Definition two_layers : list layer :=
  [LDet (Det "above"%string 1 1 3 1 []); LPass (Passive 1 1 2 1 1 None "pdg"%string); LPass (Passive 1 1 1 1 1 None "pdg"%string)].
Lemma two_stacked : stacked two_layers 2 1 2.
Proof.
  split; [lra|]. split; [reflexivity|]. split; [lia|]. intros [|[|k]] L E; cbn in E.
  - injection E as <-. cbn. lra.
  - injection E as <-. cbn. lra.
  - destruct k; discriminate.
Qed.
Theorem C55_asymmetric_refuted :
  exists ls up s n z, stacked ls up s n /\ in_layer ls 0 z /\ scatter_layer ls z = Ok (Some 1%nat).
Proof.
  exists two_layers, 2, 1, 2%nat, (3/2). split; [apply two_stacked|]. split.
  - eexists. split; [reflexivity|]. cbn. lra.
  - apply (C55_shifted two_layers 2 1 2 3); [apply two_stacked|reflexivity|]. eexists. split; [reflexivity|]. cbn. lra.
Qed.
Print Assumptions C55_asymmetric_refuted.
(* with detectors of height 1 above and below *)
Example C55_case :
  let ls := [LDet (Det "above"%string 1 1 4 1 []); LPass (Passive 1 1 3 1 1 None "pdg"%string); LPass (Passive 1 1 2 1 1 None "pdg"%string);
             LDet (Det "below"%string 1 1 1 1 [])] in
  scatter_layer ls (5/2) = Ok (Some 0%nat) /\ scatter_layer ls (3/2) = Ok (Some 1%nat).
Proof.
  intro ls. assert (stacked ls 3 1 2) as St.
  { split; [lra|]. split; [reflexivity|]. split; [lia|]. intros [|[|k]] L E; cbn in E.
    - injection E as <-. cbn. lra.
    - injection E as <-. cbn. lra.
    - destruct k; discriminate. }
  split; apply (C55_symmetric ls 3 1 2 4 _ _ St eq_refl ltac:(cbn; lra)); eexists; (split; [reflexivity|]); cbn; lra.
Qed.
