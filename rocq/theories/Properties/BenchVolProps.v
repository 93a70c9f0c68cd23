(* Property C95: detector layouts of the benchmarks. *)
From Coq Require Import ZArith Lia Lra.
From Verif Require Import Model.BenchVol Spec.VolumeSpec Spec.BenchVolSpec Proofs.VolumeP Proofs.BenchVolP.
Open Scope R_scope.
Open Scope string_scope.
Open Scope list_scope.

(* C95. Walls benchmark, voxels of k hundredths and a passive volume n voxels high: the layers follow one another without gap from
   height h + 2d down to 0, a detector layer on top and one at the bottom with n passive layers of one voxel between them, and the panels
   lie in their layers, a quarter of the layer apart, over the middle, with the size, resolution and efficiency asked for. *)
Theorem C95_walls :
  forall argsort k n lx ly span res eff d, (0 < k)%Z -> 0 < d -> 0 < res -> 0 < eff ->
  let s := IZR k / 100 in let h := INR n * s in
  exists V, get_small_walls_volume argsort s lx ly h span res eff d = Ok V /\ v_budget V = None /\ v_target V = None
  /\ flush (h + 2 * d) (v_layers V) 0 /\ sandwich (v_layers V)
  /\ List.length (passives (v_layers V)) = n /\ Forall (fun L => pl_lx L = lx /\ pl_ly L = ly /\ pl_size L = s /\ pl_rad L = None) (passives (v_layers V))
  /\ map pn_z (all_panels (v_layers V)) = [h + 2 * d; h + 2 * d - d / 4; h + 2 * d - d / 2; h + 2 * d - 3 * d / 4; d; d - d / 4; d - d / 2; d - 3 * d / 4]
  /\ Forall (fun P => pn_x P = lx / 2 /\ pn_y P = ly / 2 /\ span_x P = span * lx /\ span_y P = span * ly /\ pn_res P = res /\ pn_eff P = eff) (all_panels (v_layers V)).
Proof.
  intros argsort k n lx ly span res eff d Hk Hd Hr He s h. exists (Volume (walls_layers k n lx ly span res eff d) None [] None).
  split; [now apply walls_volume_ok|]. cbn [v_budget v_target v_layers]. split; [reflexivity|]. split; [reflexivity|].
  split; [now apply walls_flush|]. split; [now apply walls_sandwich|]. unfold walls_layers. rewrite passives_mid, map_length, seq_length. split; [reflexivity|].
  split; [apply Forall_forall; intros L HL; apply in_map_iff in HL as (i & <- & _); repeat split|].
  unfold all_panels, detectors. cbn [flat_map app]. rewrite flat_map_app. cbn [flat_map app].
  replace (flat_map _ (map _ (seq 0 n))) with (@nil detlayer) by (generalize (seq 0 n); intros l; induction l as [|i l IH]; [reflexivity|exact IH]).
  cbn [app flat_map dl_panels four map seq]. rewrite ?app_nil_r. fold s. fold h. split.
  - cbn [four map seq app pn_z INR]. repeat (apply f_equal2; [lra|]). reflexivity.
  - unfold four. cbn [map seq app]. repeat constructor; unfold span_x, span_y; cbn; lra.
Qed.
Print Assumptions C95_walls.
Example C95_walls_case : (0 < 100)%Z /\ IZR 100 / 100 = 1. Proof. split; [lia|lra]. Qed.

(* C95. If the sides and the detector height are whole numbers of voxels too, the passive layers are a stack of whole voxels on the grid,
   which is what the theorems about voxel lookup and inference (C22, C23, C39, C72) ask for. *)
Theorem C95_grid :
  forall argsort k nx ny n m span res eff, (0 < k)%Z -> (0 < n)%nat -> 0 < res -> 0 < eff ->
  let s := IZR k / 100 in
  exists V, get_small_walls_volume argsort s (INR nx * s) (INR ny * s) (INR n * s) span res eff (IZR m * s) = Ok V /\ stack (v_layers V) s m nx ny n.
Proof.
  intros argsort k nx ny n m span res eff Hk Hn Hr He s. eexists. split; [now apply walls_volume_ok|]. cbn [v_layers].
  assert (0 < s) by (apply IZR_lt in Hk; unfold s; lra).
  eapply (passes_stack _ (INR nx * s) (INR ny * s) s (INR n * s + IZR m * s) n); auto.
  - unfold walls_layers. apply (passives_mid _ _ (fun i => INR n * (IZR k / 100) + IZR m * s - INR i * (IZR k / 100))).
  - rewrite plus_IZR, <- INR_IZR_INZ. ring.
Qed.
Print Assumptions C95_grid.

(* C95. The heights are rounded to hundredths: with voxels of an eighth, layers overlap, and nothing complains. *)
Theorem C95_overlap_refuted :
  exists argsort s n V L0 L1, 0 < s /\ get_small_walls_volume argsort s 1 1 (INR n * s) 4 1 1 1 = Ok V
  /\ nth_error (passives (v_layers V)) 0 = Some L0 /\ nth_error (passives (v_layers V)) 1 = Some L1 /\ pl_z L0 - pl_size L0 < pl_z L1.
Proof.
  exists (fun _ => []), (1/8), 8%nat. unfold get_small_walls_volume. rewrite !walls_panels_ok by lra. cbn [bind].
  rewrite (arange_whole _ _ _ 8) by lra. cbn [bind]. rewrite !map_map. cbn [seq map app].
  do 3 eexists. split; [lra|]. split; [unfold new_volume; erewrite (check_same _ 1 1 (fun i => round2 (INR 8 * (1/8) - INR i * (1/8)) + 1) (1/8) (seq 0 8)); [reflexivity|reflexivity]|].
  split; [reflexivity|]. split; [reflexivity|]. cbn [pl_z pl_size]. unfold round2.
  replace ((INR 8 * (1 / 8) - INR 0 * (1 / 8)) * 100) with (IZR 100) by (cbn; lra). rewrite round_half_even_int.
  replace ((INR 8 * (1 / 8) - INR 1 * (1 / 8)) * 100) with (IZR 87 + 1 / 2) by (cbn; lra).
  replace (round_half_even (IZR 87 + 1 / 2)) with 88%Z; [lra|]. unfold round_half_even. rewrite (Rfloor_unique (IZR 87 + 1 / 2) 87) by lra.
  destruct (Rltb_spec (IZR 87 + 1 / 2 - 87) (1 / 2)); [lra|]. destruct (Rltb_spec (1 / 2) (IZR 87 + 1 / 2 - 87)); [lra|]. reflexivity.
Qed.
Print Assumptions C95_overlap_refuted.

(* C95. If the height is not a whole number of voxels the lowest passive layer reaches into the detectors below it. *)
Theorem C95_into_detector_refuted :
  exists argsort s h d V L, 0 < s /\ 0 < h /\ get_small_walls_volume argsort s 1 1 h 4 1 1 d = Ok V
  /\ last_passive (v_layers V) = Ok L /\ pl_z L - pl_size L < d.
Proof.
  exists (fun _ => []), (2/5), 1, 1. unfold get_small_walls_volume. rewrite !walls_panels_ok by lra. cbn [bind].
  unfold arange_down. destruct (Reqb_spec (2/5) 0); [lra|]. cbn [bind]. rewrite (Rfloor_unique (- ((0 - 1) / - (2 / 5))) (-3)) by (replace ((0 - 1) / - (2 / 5)) with (5 / 2) by field; lra).
  change (Z.to_nat (- -3)) with 3%nat. rewrite !map_map. cbn [seq map app].
  do 2 eexists. split; [lra|]. split; [lra|]. split; [unfold new_volume; erewrite (check_same _ 1 1 (fun i => round2 (1 + INR i * - (2/5)) + 1) (2/5) (seq 0 3)); [reflexivity|reflexivity]|].
  split; [reflexivity|]. cbn [pl_z pl_size]. replace (1 + INR 2 * - (2 / 5)) with (IZR 20 / 100) by (cbn; lra). rewrite round2_exact. lra.
Qed.
Print Assumptions C95_into_detector_refuted.

(* C95. Bad resolutions, efficiencies and a voxel size of 0 are refused. *)
Theorem C95_bad_values :
  forall argsort s lx ly h span res eff d, res <= 0 \/ eff <= 0 \/ s = 0 -> get_small_walls_volume argsort s lx ly h span res eff d = Err ValueError.
Proof.
  intros argsort s lx ly h span res eff d H. unfold get_small_walls_volume. destruct (Rle_dec res 0); [rewrite walls_panels_err by auto; reflexivity|].
  destruct (Rle_dec eff 0); [rewrite walls_panels_err by auto; reflexivity|]. rewrite !walls_panels_ok by lra. cbn [bind].
  assert (s = 0) as -> by (destruct H as [H|[H|H]]; lra). unfold arange_down. destruct (Reqb_spec 0 0); [reflexivity|lra].
Qed.
Print Assumptions C95_bad_values.

(* C95. Ladle furnace: each of the three layouts is flush from 1.8 to 0, its passive layers are ten by ten by ten voxels of a tenth on the
   grid, and the panels lie in their layers with the span and resolution asked for.  The edges of the second panel from the top
   are ten times sharper than those of the others. *)
Definition ladle_layout (run : R -> R -> R -> Res.res (list layer)) (xy : R) : Prop :=
  forall res eff span, 0 < res -> 0 < eff ->
  exists ls, run res eff span = Ok ls /\ flush (9/5) ls 0 /\ sandwich ls /\ stack ls (1/10) 4 10 10 10 /\ List.length (all_panels ls) = 8%nat
  /\ Forall (fun P => pn_x P = xy /\ pn_y P = xy /\ span_x P = span /\ span_y P = span /\ pn_res P = res) (all_panels ls)
  /\ (forall i P, i <> 5%nat -> nth_error (all_panels ls) i = Some P -> pn_eff P = eff)
  /\ forall i P, nth_error (all_panels ls) i = Some P -> pn_resp P = Sig (if Nat.eqb i 1 then 1/10 else 1).
Lemma ladle_any xy a1 a2 a3 a4 b1 b2 b3 b4 :
  9/5 >= a1 -> a1 > a2 -> a2 > a3 -> a3 > a4 -> a4 >= 7/5 -> 2/5 >= b1 -> b1 > b2 -> b2 > b3 -> b3 > b4 -> b4 >= 0 ->
  ladle_layout (ladle_detector xy (a1, a2, a3, a4) (b1, b2, b3, b4)) xy.
Proof.
  intros A1 A2 A3 A4 A5 B1 B2 B3 B4 B5 res eff span Hr He. unfold ladle_detector.
  assert (N : forall s e z, 0 < s -> 0 < e -> new_panel (Sig s) res e xy xy z span span 1 None true = Ok (Panel (Sig s) res e xy xy z span span 1 1 true)).
  { intros s e z Hs He'. unfold new_panel. destruct (Rleb_spec res 0); [lra|]. destruct (Rleb_spec e 0); [lra|]. destruct (Rltb_spec 0 s); [reflexivity|lra]. }
  unfold ladle_panels. cbn [mapM]. rewrite !N by lra. cbn [bind]. rewrite (arange_whole _ _ _ 10) by (cbn; lra). cbn [bind].
  replace (1/10) with (IZR 10 / 100) by lra. rewrite (heights 10 10 140) by lra. rewrite map_map.
  eexists. split; [reflexivity|]. split; [|split; [|split; [|split; [reflexivity|split; [|split]]]]].
  - cbn [flush extent fst snd dl_z dl_size]. split; [reflexivity|]. split; [lra|].
    replace (9 / 5 - 2 / 5) with (9 / 5 - 2 / 5 - INR 0 * (IZR 10 / 100)) at 1 by (cbn; lra). apply flush_mid; [lra|]. cbn [flush extent fst snd dl_z dl_size]. cbn. repeat split; lra.
  - rewrite mid_passes. do 3 eexists. split; [reflexivity|]. split; [reflexivity|]. split; [reflexivity|]. split; (split; [discriminate|]); cbn [dl_panels dl_z dl_size map pn_z descending]; (split; [repeat (apply Forall_cons; [cbn [pn_z]; lra|]); apply Forall_nil|lra]).
  - eapply passes_stack; [lra|lia|apply passives_mid| | | ]; cbn; lra.
  - cbn. repeat constructor; unfold span_x, span_y; cbn; lra.
  - intros i P Hi H. do 8 (destruct i as [|i]; [cbn in H; injection H as <-; reflexivity || congruence|]). destruct i; discriminate.
  - intros i P H. do 8 (destruct i as [|i]; [cbn in H; injection H as <-; cbn; f_equal; lra|]). destruct i; discriminate.
Qed.
Theorem C95_ladle :
  ladle_layout get_initial_detector 0 /\ ladle_layout get_baseline_detector_1 (1/2) /\ ladle_layout get_baseline_detector_2 (1/2).
Proof. split; [|split]; apply ladle_any; lra. Qed.
Print Assumptions C95_ladle.
(* C95. But one panel of each layout is fully efficient whatever efficiency is asked for. *)
Theorem C95_efficiency_refuted :
  exists res eff span ls P, get_initial_detector res eff span = Ok ls /\ nth_error (all_panels ls) 5 = Some P /\ pn_eff P <> eff.
Proof.
  exists 1, (1/2), 1. unfold get_initial_detector, ladle_detector.
  assert (N : forall s e z, 0 < s -> 0 < e -> new_panel (Sig s) 1 e 0 0 z 1 1 1 None true = Ok (Panel (Sig s) 1 e 0 0 z 1 1 1 1 true)).
  { intros s e z Hs He'. unfold new_panel. destruct (Rleb_spec 1 0); [lra|]. destruct (Rleb_spec e 0); [lra|]. destruct (Rltb_spec 0 s); [reflexivity|lra]. }
  unfold ladle_panels. cbn [mapM]. rewrite !N by lra. cbn [bind]. rewrite (arange_whole _ _ _ 10) by (cbn; lra). cbn [bind].
  do 2 eexists. split; [reflexivity|]. split; [reflexivity|]. cbn. lra.
Qed.
Print Assumptions C95_efficiency_refuted.
(* C95. And one panel of each layout has another smoothness than the others. *)
Theorem C95_smoothness_refuted :
  exists res eff span ls P Q, get_baseline_detector_1 res eff span = Ok ls /\ In P (all_panels ls) /\ In Q (all_panels ls) /\ pn_resp P <> pn_resp Q.
Proof.
  destruct (proj1 (proj2 C95_ladle) 1 1 1) as (ls & E & _ & _ & _ & L & _ & _ & S); try lra.
  destruct (nth_error (all_panels ls) 0) as [P|] eqn:E0; [|apply nth_error_None in E0; lia]. destruct (nth_error (all_panels ls) 1) as [Q|] eqn:E1; [|apply nth_error_None in E1; lia].
  exists 1, 1, 1, ls, P, Q. split; [exact E|]. split; [now apply nth_error_In in E0|]. split; [now apply nth_error_In in E1|].
  rewrite (S _ _ E0), (S _ _ E1). cbn. intros [= H]. lra.
Qed.
Print Assumptions C95_smoothness_refuted.
