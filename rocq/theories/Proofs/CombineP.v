(* Combination of scatter batches. *)
From Coq Require Import Lia.
From Verif Require Import Model.X0Infer Spec.ScatterSpec Spec.InferSpec Proofs.ScatterBatchP Proofs.MuonConserve Proofs.PanelP Proofs.EffP Proofs.WAvgP Proofs.InferStateP.
Open Scope list_scope.

Lemma flat_view {B} (f : sview -> list B) (h : smuon -> B) bss : (forall ms, f (view ms) = map h ms) ->
  flat_map f (map view bss) = map h (concat bss).
Proof. intro H. induction bss as [|ms bss IH]; simpl; [auto|]. rewrite H, IH, map_app. reflexivity. Qed.
Lemma mask_mul_map {A} (p q : A -> bool) l : mask_mul (map p l) (map q l) = Ok (map (fun a => p a && q a) l).
Proof. unfold mask_mul. rewrite !map_length, Nat.eqb_refl, map2_maps. reflexivity. Qed.
Lemma fin_row row : negb (existsb xisnan row) && negb (existsb xisinf row) = forallb xisfin row.
Proof.
  induction row as [|a row IH]; [reflexivity|]. cbn [existsb forallb]. rewrite <- IH.
  destruct a; cbn; destruct (existsb xisnan row), (existsb xisinf row); reflexivity.
Qed.
Lemma mstep_map {A} (p : A -> bool) (f h : A -> list xr) l :
  mstep (map p l) (map f l, map h l) = Ok (map (fun a => p a && (forallb xisfin (f a) && forallb xisfin (h a))) l).
Proof.
  unfold mstep, not_any. rewrite !map_map. repeat (rewrite mask_mul_map; cbn [bind]). f_equal. apply map_ext. intro a. rewrite <- !fin_row.
  rewrite !andb_assoc. reflexivity.
Qed.
Lemma mask_view bss : valid_mask (map view bss) = Ok (map all_numbers (concat bss)).
Proof.
  unfold valid_mask, values_of, uncs_of. change (foldM _ ?l ?m) with (foldM mstep l m).
  rewrite (flat_view s_poca (fun m => t3 (k_poca m))), (flat_view s_poca_unc (fun m => t3 (k_poca_u m))), (flat_view s_tot (fun m => [k_tot m])),
    (flat_view s_tot_unc (fun m => [k_tot_u m])), (flat_view s_tin (fun m => [k_in m])), (flat_view s_tin_unc (fun m => [k_in_u m])),
    (flat_view s_tout (fun m => [k_out m])), (flat_view s_tout_unc (fun m => [k_out_u m])), (flat_view s_mom k_mom) by reflexivity.
  rewrite !map_map. cbn [combine foldM]. repeat (rewrite mstep_map; cbn [bind]). f_equal. apply map_ext. intro m.
  unfold all_numbers, k_vars, k_uncs. rewrite !forallb_app. cbn [forallb xisfin].
  repeat match goal with |- context [forallb xisfin (t3 ?p)] => generalize (forallb xisfin (t3 p)); intro | |- context [xisfin ?a] => generalize (xisfin a); intro end.
  repeat match goal with b : bool |- _ => destruct b; cbn [andb]; try reflexivity end.
Qed.
Lemma select_map_filter {A B} (p : A -> bool) (f : A -> B) l : select (map p l) (map f l) = map f (filter p l).
Proof. rewrite select_map, select_filter. reflexivity. Qed.

Section C.
Variables (eff_of : sview -> res (list xr)) (e : smuon -> xr).
Lemma effs_view bss : (forall ms, In ms bss -> eff_of (view ms) = Ok (map e ms)) ->
  exists es, mapM eff_of (map view bss) = Ok es /\ concat es = map e (concat bss).
Proof.
  induction bss as [|ms bss IH]; intro H; [exists []; auto|]. destruct IH as (es & E & C); [intros; apply H; right; auto|].
  exists (map e ms :: es). cbn [map mapM]. rewrite H by (left; auto). cbn [bind]. rewrite E. split; [reflexivity|]. simpl. rewrite C, map_app. reflexivity.
Qed.
Lemma read_views bss : mapM (fun b : res sview => b) (map (fun ms => Ok (view ms)) bss) = Ok (map view bss).
Proof. induction bss as [|ms bss IH]; [reflexivity|]. cbn [map mapM bind]. rewrite IH. reflexivity. Qed.
Lemma combined_view bss : bss <> [] -> (forall ms, In ms bss -> eff_of (view ms) = Ok (map e ms)) ->
  let kept := filter all_numbers (concat bss) in
  combined eff_of (map (fun ms => Ok (view ms)) bss) = Ok (map k_vars kept, map k_uncs kept, map e kept, List.length kept).
Proof.
  intros N H kept. unfold combined. destruct (map (fun ms => Ok (view ms)) bss) as [|b0 bs0] eqn:E; [destruct bss; [congruence|discriminate]|].
  rewrite <- E. clear E b0 bs0. rewrite read_views. cbn [bind]. rewrite mask_view. cbn [bind]. destruct (effs_view bss H) as (es & -> & C). cbn [bind]. rewrite C.
  rewrite select_map_filter. fold kept. unfold values_of, uncs_of.
  rewrite (flat_view s_poca (fun m => t3 (k_poca m))), (flat_view s_poca_unc (fun m => t3 (k_poca_u m))), (flat_view s_tot (fun m => [k_tot m])),
    (flat_view s_tot_unc (fun m => [k_tot_u m])), (flat_view s_tin (fun m => [k_in m])), (flat_view s_tin_unc (fun m => [k_in_u m])),
    (flat_view s_tout (fun m => [k_out m])), (flat_view s_tout_unc (fun m => [k_out_u m])), (flat_view s_mom k_mom) by reflexivity.
  rewrite !map_map. cbn [map]. rewrite !select_map_filter. fold kept. cbn [hcat fold_left]. repeat rewrite map2_maps.
  assert (map (fun a => (((t3 (k_poca a) ++ [k_tot a]) ++ [k_in a]) ++ [k_out a]) ++ [k_mom a]) kept = map k_vars kept) as ->.
  { apply map_ext. intro m. unfold k_vars. rewrite <- !app_assoc. reflexivity. }
  assert (map (fun a => (((t3 (k_poca_u a) ++ [k_tot_u a]) ++ [k_in_u a]) ++ [k_out_u a]) ++ [Fin 0]) kept = map k_uncs kept) as ->.
  { apply map_ext. intro m. unfold k_uncs. rewrite <- !app_assoc. reflexivity. }
  rewrite map_length. reflexivity.
Qed.
Lemma view_good bss : (forall ms, In ms bss -> eff_of (view ms) = Ok (map e ms)) -> eff_good eff_of (map (fun ms => Ok (view ms)) bss).
Proof.
  intros H v I. apply in_map_iff in I as (ms & [= <-] & I). exists (map e ms). split; auto. cbn. rewrite !map_length. auto.
Qed.
End C.

Lemma asked_after g cdf eff_of pu bs reads : eff_good eff_of bs ->
  interact g cdf eff_of pu (map Add bs ++ map Ask reads) new_inf = map (known g cdf eff_of pu bs) reads.
Proof.
  intro G. destruct (interact_known g cdf eff_of pu (map Add bs ++ map Ask reads) [] new_inf) as [-> _]; [constructor|intros v []| |].
  - intros v I. apply in_app_or in I as [I|I]; apply in_map_iff in I as (x & E & I); [injection E as ->; apply G, I|discriminate].
  - assert (forall bs acc, questions (map Add bs ++ map Ask reads) acc = map (fun r => (acc ++ bs, r)) reads) as Q.
    { clear. induction bs as [|b bs IH]; intro acc; cbn [map app questions]; [|rewrite IH, <- app_assoc; reflexivity].
      rewrite app_nil_r. induction reads as [|r reads IH]; [reflexivity|]. cbn [map questions]. rewrite IH. reflexivity. }
    rewrite Q, map_map. reflexivity.
Qed.
Lemma panel_eff_view ms (a b : smuon -> list R) :
  (forall m, In m ms -> k_above m = map Fin (a m) /\ k_below m = map Fin (b m) /\ (2 <= List.length (a m))%nat /\ (2 <= List.length (b m))%nat) ->
  panel_efficiency (view ms) = Ok (map (fun m => Fin (prob_two (a m) * prob_two (b m))) ms).
Proof.
  unfold panel_efficiency. cbn [s_above s_below view]. induction ms as [|m ms IH]; intro H; [reflexivity|]. cbn [map combine mapM fst snd].
  destruct (H m (or_introl eq_refl)) as (-> & -> & La & Lb). rewrite muon_eff_spec by auto. cbn [bind]. rewrite IH by (intros; apply H; right; auto). reflexivity.
Qed.

(* what is read from a scatter batch has one entry of each kind per muon *)
Definition rows (n k : nat) (t : tensor2) : Prop := List.length t = n /\ Forall (fun r => List.length r = k) t.
Lemma rows_cons n k t : rows (S n) k t -> exists r t', t = r :: t' /\ List.length r = k /\ rows n k t'.
Proof. intros [L F]. destruct t as [|r t]; [discriminate|]. inversion F; subst. exists r, t. repeat split; auto. Qed.
Lemma row1 {A} (r : list A) : List.length r = 1%nat -> exists a, r = [a].
Proof. destruct r as [|a [|]]; try discriminate. eauto. Qed.
Lemma row3 {A} (r : list A) : List.length r = 3%nat -> exists a b c, r = [a; b; c].
Proof. destruct r as [|a [|b [|c [|]]]]; try discriminate. eauto. Qed.
Lemma view_build n : forall p pu t tu i iu o ou m (a b : list (list xr)),
  rows n 3 p -> rows n 3 pu -> rows n 1 t -> rows n 1 tu -> rows n 1 i -> rows n 1 iu -> rows n 1 o -> rows n 1 ou -> List.length m = n -> List.length a = n -> List.length b = n ->
  exists ms, SView p pu t tu i iu o ou m a b = view ms /\ map k_above ms = a /\ map k_below ms = b /\ map k_mom ms = m.
Proof.
  induction n as [|n IH]; intros p pu t tu i iu o ou m a b Hp Hpu Ht Htu Hi Hiu Ho Hou Hm Ha Hb.
  - exists []. destruct p, pu, t, tu, i, iu, o, ou, m, a, b; try discriminate;
      repeat match goal with H : rows 0 _ (_ :: _) |- _ => destruct H as [H _]; discriminate H end. auto.
  - apply rows_cons in Hp as (pr & p' & -> & Lp & Hp). apply row3 in Lp as (p1 & p2 & p3 & ->). 
    apply rows_cons in Hpu as (pur & pu' & -> & Lpu & Hpu). apply row3 in Lpu as (pu1 & pu2 & pu3 & ->). 
    apply rows_cons in Ht as (tr & t' & -> & Lt & Ht). apply row1 in Lt as (t0 & ->). 
    apply rows_cons in Htu as (tur & tu' & -> & Ltu & Htu). apply row1 in Ltu as (tu0 & ->). 
    apply rows_cons in Hi as (ir & i' & -> & Li & Hi). apply row1 in Li as (i0 & ->). 
    apply rows_cons in Hiu as (iur & iu' & -> & Liu & Hiu). apply row1 in Liu as (iu0 & ->). 
    apply rows_cons in Ho as (or & o' & -> & Lo & Ho). apply row1 in Lo as (o0 & ->). 
    apply rows_cons in Hou as (our & ou' & -> & Lou & Hou). apply row1 in Lou as (ou0 & ->). 
    destruct m as [|m0 m], a as [|a0 a], b as [|b0 b]; try discriminate. injection Hm as Hm. injection Ha as Ha. injection Hb as Hb.
    destruct (IH p' pu' t' tu' i' iu' o' ou' m a b) as (ms & E & Ea & Eb & Em); auto.
    exists (SMuon (p1, p2, p3) (pu1, pu2, pu3) t0 tu0 i0 iu0 o0 ou0 m0 a0 b0 :: ms). unfold view in E. injection E. intros E1 E2 E3 E4 E5 E6 E7 E8 E9 E10 E11. unfold view. cbn [map t3 k_poca k_poca_u k_tot k_tot_u k_in k_in_u k_out k_out_u k_mom k_above k_below].
    rewrite <- E1, <- E2, <- E3, <- E4, <- E5, <- E6, <- E7, <- E8, <- E9, <- E10, <- E11. auto.
Qed.
Lemma in_map2 {A B C} (f : A -> B -> C) l l' c (P : C -> Prop) : In c (map2 f l l') -> (forall a b, P (f a b)) -> P c.
Proof. revert l'. induction l as [|a l IH]; intros [|b l'] I H; cbn [map2] in I; try contradiction. destruct I as [<-|I]; eauto. Qed.
Lemma view_shape zr unc_of sb mus v : same_shape unc_of -> view_of zr unc_of sb mus = Ok v ->
  List.length (sb_coefs sb) = List.length (sb_tracks sb) -> List.length (sb_hits sb) = List.length (sb_tracks sb) -> List.length mus = List.length (sb_tracks sb) ->
  exists ms, v = view ms /\ List.length ms = List.length mus /\ map k_mom ms = map mp mus
    /\ map k_above ms = map (fun m => firstn (sb_above sb) (mh_eff m)) (sb_hits sb) /\ map k_below ms = map (fun m => skipn (sb_above sb) (mh_eff m)) (sb_hits sb).
Proof.
  intros U E Lc Lh Lm. unfold view_of in E. rewrite cached_reads in E. cbn [map fst snd] in E.
  set (n := List.length (sb_tracks sb)) in *.
  assert (forall k t, map (@List.length xr) t = repeat k n <-> rows n k t) as R.
  { intros k t. split.
    - intro M. split; [apply (f_equal (@List.length nat)) in M; rewrite map_length, repeat_length in M; auto|].
      apply Forall_forall. intros r I. apply (in_map (@List.length xr)) in I. rewrite M in I. apply repeat_spec in I. auto.
    - intros [L F]. rewrite <- L. clear L. induction F as [|r t Hr F IH]; [reflexivity|]. cbn [map List.length repeat]. rewrite Hr, IH. auto. }
  assert (forall v t k, rows n k t -> rows n k (unc_of v t)) as Ru by (intros w t k Q; apply R; rewrite U; apply R; auto).
  assert (rows n 3 (value zr sb Poca)) as R1.
  { split; [cbn; rewrite map2_length; lia|]. apply Forall_forall. intros r I. cbn [value] in I.
    apply (in_map2 _ _ _ _ (fun r => List.length r = 3%nat) I). intros; reflexivity. }
  assert (forall f, rows n 1 (map (fun ts => [f ts]) (sb_tracks sb))) as R2.
  { intro f. split; [rewrite map_length; auto|]. apply Forall_forall. intros r I. apply in_map_iff in I as (ts & <- & _). auto. }
  destruct (sb_tracks sb) eqn:Et; [discriminate|]. rewrite <- Et in *. injection E as <-.
  destruct (view_build n (value zr sb Poca) (unc_of Poca (value zr sb Poca)) (value zr sb TotalScatter) (unc_of TotalScatter (value zr sb TotalScatter))
     (value zr sb ThetaIn) (unc_of ThetaIn (value zr sb ThetaIn)) (value zr sb ThetaOut) (unc_of ThetaOut (value zr sb ThetaOut)) (map mp mus)
     (map (fun m => firstn (sb_above sb) (mh_eff m)) (sb_hits sb)) (map (fun m => skipn (sb_above sb) (mh_eff m)) (sb_hits sb))) as (ms & E & Ea & Eb & Em);
   auto; try (apply Ru; auto); try apply R2; try (rewrite map_length; auto).
  exists ms. repeat split; auto. apply (f_equal (@List.length xr)) in Em. rewrite !map_length in Em. auto.
Qed.
