(* Proofs for Properties/BenchVolProps.v *)
From Coq Require Import ZArith Lia Lra.
From Verif Require Import Model.BenchVol Spec.VolumeSpec Spec.BenchVolSpec Proofs.VolumeP Proofs.LadleP.
Open Scope R_scope.
Open Scope string_scope.
Open Scope list_scope.

(* np.arange over a whole number of steps *)
Lemma arange_whole start stop size n : 0 < size -> start - stop = INR n * size ->
  arange_down start stop size = Ok (map (fun i => start - INR i * size) (seq 0 n)).
Proof.
  intros Hs E. unfold arange_down. destruct (Reqb_spec size 0); [lra|]. f_equal.
  replace ((stop - start) / - size) with (INR n) by (replace (stop - start) with (- (INR n * size)) by lra; field; lra).
  rewrite (Rfloor_unique (- INR n) (- Z.of_nat n)) by (rewrite opp_IZR, <- INR_IZR_INZ; lra). rewrite Z.opp_involutive, Nat2Z.id.
  apply map_ext. intros i. ring.
Qed.
Lemma round2_exact z : round2 (IZR z / 100) = IZR z / 100.
Proof. unfold round2. replace (IZR z / 100 * 100) with (IZR z) by field. now rewrite round_half_even_int. Qed.
(* heights of whole hundredths are not changed by rounding *)
Lemma heights k n a : forall start, start = IZR a / 100 ->
  map round2 (map (fun i => start - INR i * (IZR k / 100)) (seq 0 n)) = map (fun i => start - INR i * (IZR k / 100)) (seq 0 n).
Proof.
  intros start ->. rewrite map_map. apply map_ext. intros i.
  replace (IZR a / 100 - INR i * (IZR k / 100)) with (IZR (a - Z.of_nat i * k) / 100) by (rewrite minus_IZR, mult_IZR, <- INR_IZR_INZ; field).
  apply round2_exact.
Qed.
Lemma flush_mid lx ly s t tail bottom : 0 < s -> forall n j, flush (t - INR (j + n) * s) tail bottom ->
  flush (t - INR j * s) (map (fun i => new_passive lx ly (t - INR i * s) s) (seq j n) ++ tail) bottom.
Proof.
  intros Hs. induction n as [|n IH]; intros j H.
  - now rewrite Nat.add_0_r in H.
  - cbn [seq map app flush]. unfold new_passive at 1 2 3. cbn [extent fst snd pl_z pl_size]. split; [reflexivity|]. split; [exact Hs|].
    replace (t - INR j * s - s) with (t - INR (S j) * s) by (rewrite S_INR; ring). apply IH. now replace (S j + n)%nat with (j + S n)%nat by lia.
Qed.
Lemma passives_mid lx ly (f : nat -> R) s l A B :
  passives (LDet A :: map (fun i => new_passive lx ly (f i) s) l ++ [LDet B]) = map (fun i => Passive lx ly (f i) s (1/100) None "pdg") l.
Proof.
  unfold passives. cbn [flat_map app]. rewrite flat_map_app. cbn [flat_map app]. rewrite app_nil_r.
  induction l as [|i l IH]; [reflexivity|]. cbn. now rewrite IH.
Qed.
Lemma mid_passes lx ly (f : nat -> R) s l : map (fun i => new_passive lx ly (f i) s) l = map LPass (map (fun i => Passive lx ly (f i) s (1/100) None "pdg") l).
Proof. now rewrite map_map. Qed.
Lemma check_same ls lx ly (f : nat -> R) s l : passives ls = map (fun i => Passive lx ly (f i) s (1/100) None "pdg") l -> check_passives ls = Ok tt.
Proof.
  intros E. unfold check_passives. rewrite E. destruct l as [|i l]; [reflexivity|]. cbn [map].
  replace (forallb _ _) with true; [reflexivity|]. symmetry. apply forallb_forall. intros L H. apply in_map_iff in H as (j & <- & _).
  unfold same_passive. cbn [pl_lx pl_ly pl_size]. assert (forall x, Reqb x x = true) as Q by (intro; now apply Reqb_true). now rewrite !Q.
Qed.
(* the four panels of a layer of the walls benchmark *)
Definition four (lx ly top d span res eff : R) : list panel :=
  map (fun i => Panel Gauss res eff (lx / 2) (ly / 2) (top - INR i * d / 4) (span * lx) (span * ly) 1 1 true) (seq 0 4).
Lemma walls_panels_ok lx ly top d span res eff : 0 < res -> 0 < eff -> walls_panels lx ly top d span res eff = Ok (four lx ly top d span res eff).
Proof.
  intros Hr He. unfold walls_panels, four. apply mapM_ok. intros i _. unfold new_panel. destruct (Rleb_spec res 0); [lra|]. destruct (Rleb_spec eff 0); [lra|]. reflexivity.
Qed.
Lemma walls_panels_err lx ly top d span res eff : res <= 0 \/ eff <= 0 -> walls_panels lx ly top d span res eff = Err ValueError.
Proof. intros H. unfold walls_panels. cbn [mapM seq]. unfold new_panel at 1. destruct (Rleb_spec res 0); [reflexivity|]. destruct (Rleb_spec eff 0); [reflexivity|lra]. Qed.
Lemma four_inside pos lx ly top d span res eff : 0 < d -> panels_inside (Det pos lx ly top d (four lx ly top d span res eff)).
Proof.
  intros Hd. unfold panels_inside, four. cbn [dl_panels dl_z dl_size map seq pn_z descending INR]. split; [discriminate|]. split; [|repeat split; lra].
  repeat constructor; cbn [pn_z]; lra.
Qed.

(* the volume of the walls benchmark, for voxels of whole hundredths and a height of whole voxels *)
Definition walls_layers (k : Z) (n : nat) (lx ly span res eff d : R) : list layer :=
  let s := IZR k / 100 in let h := INR n * s in
  LDet (Det "above" lx ly (h + 2 * d) d (four lx ly (h + 2 * d) d span res eff))
  :: map (fun i => new_passive lx ly (h + d - INR i * s) s) (seq 0 n) ++ [LDet (Det "below" lx ly d d (four lx ly d d span res eff))].
Lemma walls_volume_ok argsort k n lx ly span res eff d : (0 < k)%Z -> 0 < res -> 0 < eff ->
  get_small_walls_volume argsort (IZR k / 100) lx ly (INR n * (IZR k / 100)) span res eff d = Ok (Volume (walls_layers k n lx ly span res eff d) None [] None).
Proof.
  intros Hk Hr He. apply IZR_lt in Hk. unfold get_small_walls_volume. rewrite !walls_panels_ok by assumption. cbn [bind].
  rewrite (arange_whole _ _ _ n) by (try lra). cbn [bind]. rewrite (heights k n (Z.of_nat n * k)) by (rewrite mult_IZR, <- INR_IZR_INZ; field).
  rewrite map_map. set (L := _ :: _). assert (EL : L = walls_layers k n lx ly span res eff d).
  { unfold L, walls_layers. do 2 f_equal. apply map_ext. intros i. f_equal. ring. }
  rewrite EL. unfold new_volume. erewrite (check_same _ lx ly (fun i => INR n * (IZR k / 100) + d - INR i * (IZR k / 100))); [reflexivity|]. apply passives_mid.
Qed.
Lemma walls_flush k n lx ly span res eff d : (0 < k)%Z -> 0 < d ->
  flush (INR n * (IZR k / 100) + 2 * d) (walls_layers k n lx ly span res eff d) 0.
Proof.
  intros Hk Hd. apply IZR_lt in Hk. unfold walls_layers. cbn [flush extent fst snd dl_z dl_size]. split; [reflexivity|]. split; [exact Hd|].
  set (s := IZR k / 100). assert (0 < s) by (unfold s; lra). set (t := INR n * s + d).
  replace (INR n * s + 2 * d - d) with (t - INR 0 * s) by (unfold t; cbn [INR]; ring). apply flush_mid; [assumption|].
  cbn [Nat.add flush extent fst snd dl_z dl_size]. unfold t. repeat split; lra.
Qed.
Lemma walls_sandwich k n lx ly span res eff d : 0 < d -> sandwich (walls_layers k n lx ly span res eff d).
Proof. intros Hd. unfold walls_layers. rewrite mid_passes. do 3 eexists. split; [reflexivity|]. split; [reflexivity|]. split; [reflexivity|]. split; apply four_inside; exact Hd. Qed.
Lemma passes_stack ls lx ly s t n m nx ny : 0 < s -> (0 < n)%nat -> passives ls = map (fun i => Passive lx ly (t - INR i * s) s (1/100) None "pdg") (seq 0 n) ->
  lx = INR nx * s -> ly = INR ny * s -> t = IZR (m + Z.of_nat n) * s -> stack ls s m nx ny n.
Proof.
  intros Hs Hn E -> -> ->. split; [exact Hs|]. rewrite E. split; [now rewrite map_length, seq_length|]. split; [exact Hn|]. intros k L H.
  assert (Hk : (k < n)%nat) by ((assert (nth_error (rev (map (fun i => Passive (INR nx * s) (INR ny * s) (IZR (m + Z.of_nat n) * s - INR i * s) s (1/100) None "pdg") (seq 0 n))) k <> None) as Q by congruence;
     apply nth_error_Some in Q; now rewrite rev_length, map_length, seq_length in Q)).
  rewrite <- map_rev, nth_error_map in H. destruct (nth_error (rev (seq 0 n)) k) as [i|] eqn:Ei; [|discriminate]. cbn in H. injection H as <-.
  assert (i = n - 1 - k)%nat as ->.
  { apply (nth_error_nth _ _ 0%nat) in Ei. rewrite rev_nth in Ei by (rewrite seq_length; lia). rewrite seq_length, seq_nth in Ei by lia. lia. }
  cbn. repeat split; auto. rewrite minus_INR, minus_INR, !INR_IZR_INZ, !plus_IZR by lia. cbn. ring.
Qed.
