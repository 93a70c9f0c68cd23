(* C17: crossing a volume raises no exception. *)
From Coq Require Import ZArith Psatz Lia Permutation Sorted.
From Verif Require Import Model.Volume Spec.MuonSpec Spec.AngleSpec Spec.LayerSpec Spec.VolumeSpec.
From Verif Require Import Proofs.MuonConserve Proofs.LayerP Proofs.LayerCross Proofs.PanelP Proofs.PanelResp Proofs.VolumeP.
Open Scope R_scope.
Open Scope string_scope.
Open Scope list_scope.

Lemma hit1_total P tr g x y : 0 < span_x P -> 0 < span_y P -> exists q, hit1 P tr g (Fin x) (Fin y) = Ok q.
Proof.
  intros Hx Hy. assert (forall r l s v, 0 < s -> exists a, fraction1 r l s (Fin v) = Ok a) as F.
  { intros r l s v Hs. destruct r; cbn [fraction1]; [|eauto]. destruct (normal_ratio l (s / 4) v) as (a & b & -> & -> & _); [lra|]. cbn; eauto. }
  assert (forall r n l s v, 0 < s -> exists a, resolution1 r n l s (Fin v) = Ok a) as F'.
  { intros r n l s v Hs. destruct r; cbn [resolution1]; [|eauto]. destruct (normal_ratio l (s / 4) v) as (a & b & -> & -> & _); [lra|]. cbn; eauto. }
  unfold hit1. set (inside := in_xy _ _ _).
  assert (exists r, get_resolution1 P tr inside (Fin x) (Fin y) = Ok r) as [r Er].
  { unfold get_resolution1. destruct (tr || negb (pn_real P)); [|destruct inside; eauto].
    destruct (F' (pn_resp P) (pn_res P) (pn_x P) (span_x P) x Hx) as [a ->]. destruct (F' (pn_resp P) (pn_res P) (pn_y P) (span_y P) y Hy) as [b ->].
    cbn; eauto. }
  assert (exists e, get_efficiency1 P tr inside (Fin x) (Fin y) = Ok e) as [e Ee].
  { unfold get_efficiency1. destruct (tr || negb (pn_real P)); [|destruct inside; eauto].
    destruct (F (pn_resp P) (pn_x P) (span_x P) x Hx) as [a ->]. destruct (F (pn_resp P) (pn_y P) (span_y P) y Hy) as [b ->].
    cbn; eauto. }
  rewrite Er. cbn [bind]. rewrite Ee. cbn [bind]. eauto.
Qed.

Lemma hits_total P tr rng ms : 0 < span_x P -> 0 < span_y P ->
  (forall u, In u ms -> exists x y, mx u = Fin x /\ my u = Fin y) -> exists h, panel_hits P tr rng ms = Ok h.
Proof.
  intros Hx Hy Hm. unfold panel_hits.
  destruct (mapM_total (fun iu : nat * muon => hit1 P tr (rng (fst iu)) (mx (snd iu)) (my (snd iu)))
       (combine (seq 0 (len ms)) ms)) as [r Er]; [|cbv beta in Er; rewrite Er; cbn; eauto].
  intros [i u] Hin. apply in_combine_r in Hin. destruct (Hm u Hin) as (x & y & Ex & Ey). cbn [fst snd]. rewrite Ex, Ey. apply hit1_total; auto.
Qed.

Definition spans_ok (P : panel) : Prop := 0 < span_x P /\ 0 < span_y P.

Lemma visit_total D tr rng cs : (forall c, In c cs -> downwards c) -> Forall spans_ok (dl_panels D) ->
  forall order k s (b : batch hrow), (forall i, In i order -> (i < len (dl_panels D))%nat) ->
  b_muons b = map (fun c => along c (s c)) cs ->
  exists b', visit_panels D tr rng order k b = Ok b'.
Proof.
  intros Hd Hsp. induction order as [|i order IH]; intros k s b Hb Hm; cbn [visit_panels]; [eauto|].
  destruct (nth_error (dl_panels D) i) as [P|] eqn:EP; [|apply nth_error_None in EP; specialize (Hb i (or_introl eq_refl)); lia].
  rewrite propagate_dz_all. cbn [bind b_muons with_muons].
  assert (map (fun u => go_dz1 (xsub (mz u) (Fin (pn_z P))) u) (b_muons b) = map (fun c => at_height c (pn_z P)) cs) as Em.
  { rewrite Hm, map_map. apply map_ext_in. intros c Hc. apply fly_to; auto. }
  rewrite Em. rewrite Forall_forall in Hsp. destruct (Hsp P (nth_error_In _ _ EP)) as [Hx Hy].
  destruct (hits_total P tr (rng k) (map (fun c => at_height c (pn_z P)) cs) Hx Hy) as [h ->].
  { intros u Hu. apply in_map_iff in Hu as (c & <- & _). unfold at_height, along. destruct (dir c) as [[? ?] ?] || idtac. cbn. eauto. }
  cbn [bind]. apply (IH (S k) (fun c => (g_z c - pn_z P) / cos (g_th c))).
  - intros j Hj. apply Hb. right; auto.
  - reflexivity.
Qed.

Lemma det_no_error argsort D tr rng (b : batch hrow) : is_argsort argsort -> Forall sound (b_muons b) ->
  Forall spans_ok (dl_panels D) -> exists b', det_forward argsort D tr rng b = Ok b'.
Proof.
  intros Ha Hs Hsp. destruct (sound_cases _ Hs) as (cs & Ec & Hd). unfold det_forward.
  destruct (visit_total D tr rng cs Hd Hsp (panel_zorder argsort D) 0 (fun _ => 0) b) as [b1 ->].
  - intros i Hi. eapply zorder_bound; eauto.
  - rewrite Ec. apply map_ext. intro c. symmetry. apply along_0.
  - cbn [bind]. rewrite propagate_dz_all. eauto.
Qed.

Definition layer_ready (l : layer) : Prop :=
  match l with LPass L => 0 < pl_size L /\ 0 < pl_step L /\ material_ok L | LDet D => Forall spans_ok (dl_panels D) end.

Lemma cross_no_error argsort tr o e : is_argsort argsort ->
  forall ls k done (b : batch hrow), Forall layer_ready ls -> vol_inv done b -> cross_layers argsort tr o ls k b <> Some (Err e).
Proof.
  intro Ha. induction ls as [|l ls IH]; intros k done b Hl I; cbn [cross_layers]; [discriminate|].
  pose proof (Forall_inv Hl) as Hl0. apply Forall_inv_tail in Hl.
  destruct (match l with LPass L => _ | LDet D => _ end) as [[b1|e1]|] eqn:E1; [| |discriminate].
  - apply (IH (S k) (done ++ [l])); auto. apply snapshot_inv. destruct l as [L|D].
    + destruct Hl0 as (H1 & H2 & H3). eapply pass_inv; eauto. split; auto. split; auto. apply material_positive; auto.
    + injection E1 as E1. eapply det_inv; eauto.
  - exfalso. destruct I as (Hs & Hh & _). destruct l as [L|D].
    + destruct Hl0 as (H1 & H2 & H3). exact (layer_no_error L _ _ b e1 H1 H2 H3 Hs (hits_ok_aligned _ _ Hh) E1).
    + injection E1 as E1. destruct (det_no_error argsort D tr (vr_det o k) b Ha Hs Hl0) as [b' E']. congruence.
Qed.

Lemma volume_no_error argsort tr o V us e : is_argsort argsort -> Forall sound us ->
  (forall L, In (LPass L) (v_layers V) -> 0 < pl_size L /\ 0 < pl_step L /\ material_ok L) ->
  Forall panel_ok (all_panels (v_layers V)) ->
  match v_budget V with None => True | Some c => 0 < c /\ len (v_weights V) = len (all_panels (v_layers V)) end ->
  volume_forward argsort tr o V (Batch us None [] []) <> Some (Err e).
Proof.
  intros Ha Hs Hp Hpan Hb.
  assert (exists V', assign_budget argsort V = Ok V' /\ Forall layer_ready (v_layers V')) as (V' & EV & Hready).
  { assert (forall ls, (forall L, In (LPass L) ls -> 0 < pl_size L /\ 0 < pl_step L /\ material_ok L) ->
       (forall P, In P (all_panels ls) -> spans_ok P) -> Forall layer_ready ls) as R.
    { induction ls as [|l ls IH]; intros HL HP; constructor.
      - destruct l as [L|D]; [apply HL; left; auto|]. apply Forall_forall. intros P HP'. apply HP. unfold all_panels. simpl. apply in_or_app; auto.
      - apply IH; [intros; apply HL; right; auto|]. intros P HP'. apply HP. destruct l; auto. unfold all_panels in *. simpl. apply in_or_app; auto. }
    assert (forall P, panel_ok P -> affordable P /\ spans_ok P) as Q.
    { intros P (H1 & H2 & H3 & H4). split; [repeat split; auto|]. split; apply Rmult_lt_0_compat; auto. }
    rewrite Forall_forall in Hpan.
    destruct (v_budget V) as [c|] eqn:Eb.
    - destruct Hb as [Hc Hlen]. destruct (v_weights V) as [|w0 ws] eqn:Ew.
      + assert (all_panels (v_layers V) = []) as Hnil by (destruct (all_panels (v_layers V)); [auto|discriminate]).
        destruct (give_layers_effect argsort Ha (v_layers V) []) as (ls' & E & _); [rewrite Hnil; auto|rewrite Hnil; constructor|constructor|].
        exists (Volume ls' (v_budget V) (v_weights V) (v_target V)). unfold assign_budget. rewrite Eb, Ew. cbn [softmax map]. rewrite E. split; [reflexivity|].
        cbn [v_layers]. apply R; [intros L HL; apply Hp; eapply same_layer_pass; [eapply give_layers_same; eauto|auto]|].
        intros P HP. exfalso. apply give_layers_same in E. clear - E HP Hnil. induction E as [|l l' ls ls' Hl _ IH]; simpl in *; auto.
        destruct l, l'; try contradiction; auto. destruct Hl as (ps & -> & F). unfold all_panels in *. simpl in *.
        apply app_eq_nil in Hnil as [Hn1 Hn2]. rewrite Hn1 in F. inversion F; subst. simpl in HP. auto.
      + destruct (budget_spent argsort V c Ha Eb Hc) as (V' & EV & _ & Hcost & _ & _ & _ & Hsame & Hscale & _); [congruence|congruence| |].
        { apply Forall_forall. intros P HP. apply Q; auto. }
        exists V'. split; auto. apply R; [intros L HL; apply Hp; eapply same_layer_pass; eauto|].
        intros P HP. rewrite Forall_forall in Hcost. specialize (Hcost P HP). rewrite Forall_forall in Hscale. specialize (Hscale P HP).
        assert (exists P0, In P0 (all_panels (v_layers V)) /\ same_but_scale P0 P) as (P0 & HP0 & sc & ->).
        { clear - Hsame HP. induction Hsame as [|l l' ls ls' Hl _ IH]; simpl in *; [contradiction|].
          destruct l, l'; try contradiction; auto. destruct Hl as (ps & -> & F). unfold all_panels in *. simpl in *.
          apply in_app_or in HP as [HP|HP].
          - cbn in HP. clear - F HP. revert HP. generalize dependent ps. induction (dl_panels D) as [|A l IH]; intros ps F HP; inversion F; subst; [contradiction|].
            destruct HP as [<-|HP]; [eexists; split; [left; reflexivity|auto]|].
            destruct (IH _ H3 HP) as (P0 & H & ?). exists P0. split; auto. simpl. auto.
          - destruct (IH HP) as (P0 & H & ?). exists P0. split; auto. apply in_or_app; auto. }
        destruct (Hpan P0 HP0) as (H1 & H2 & H3 & H4). unfold panel_cost, spans_ok, span_x, span_y, with_scale in *. cbn in *.
        assert (0 < sc) as Hsc; [|split; apply Rmult_lt_0_compat; auto].
        clear - Hcost Hscale H1 H2 H4. assert (0 < sc * sc) by (replace (pn_m2 P0 * (pn_sx P0 * sc * (pn_sy P0 * sc))) with (pn_m2 P0 * pn_sx P0 * pn_sy P0 * (sc * sc)) in Hcost by ring; assert (0 < pn_m2 P0 * pn_sx P0 * pn_sy P0) by (apply Rmult_lt_0_compat; [apply Rmult_lt_0_compat|]; auto); nra).
        destruct Hscale as [|<-]; lra.
    - exists V. unfold assign_budget. rewrite Eb. split; auto. apply R; auto. intros P HP. apply Q; auto. }
  unfold volume_forward. rewrite EV.
  destruct (cross_layers argsort tr o (v_layers V') 0 (Batch us None [] [])) as [[b1|e1]|] eqn:E2; try discriminate.
  exfalso. eapply (cross_no_error argsort tr o e1 Ha (v_layers V') 0 []); eauto.
  split; [auto|]. split; [constructor|]. split; [auto|]. intros; constructor.
Qed.

(* an argsort: insertion sort of the indices *)
Fixpoint ins_idx (l : list R) (i : nat) (o : list nat) : list nat :=
  match o with [] => [i] | j :: o' => if Rle_dec (nth i l 0) (nth j l 0) then i :: o else j :: ins_idx l i o' end.
Definition argsort_ins (l : list R) : list nat := fold_right (ins_idx l) [] (seq 0 (len l)).
Lemma ins_idx_perm l i o : Permutation (ins_idx l i o) (i :: o).
Proof.
  induction o as [|j o IH]; simpl; auto. destruct (Rle_dec _ _); auto. rewrite IH. constructor.
Qed.
Lemma ins_idx_sorted l i o : StronglySorted Rle (map (fun i => nth i l 0) o) -> StronglySorted Rle (map (fun i => nth i l 0) (ins_idx l i o)).
Proof.
  induction o as [|j o IH]; simpl; intro Hs; [repeat constructor|]. destruct (Rle_dec _ _) as [Hle|Hn]; simpl.
  - constructor; auto. constructor; auto. inversion Hs; subst. eapply Forall_impl; [|eassumption]. simpl; intros; lra.
  - inversion Hs; subst. constructor; auto. eapply Permutation_Forall.
    + apply Permutation_map, Permutation_sym, ins_idx_perm.
    + simpl. constructor; auto. lra.
Qed.
Lemma argsort_exists : is_argsort argsort_ins.
Proof.
  intro l. unfold argsort_ins. split.
  - induction (seq 0 (len l)) as [|i o IH]; simpl; auto. rewrite ins_idx_perm. auto.
  - induction (seq 0 (len l)) as [|i o IH]; simpl; [constructor|]. apply ins_idx_sorted; auto.
Qed.
