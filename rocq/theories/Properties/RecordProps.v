(* Property C99: ScatterRecord and HitRecord. *)
From Coq Require Import Lia Lra Sorted.
From Verif Require Import Base.RUtil Model.Fit Model.Record Spec.FitSpec Spec.RecordSpec Proofs.FitP Proofs.FitScan Proofs.FitAll Proofs.RecordP Proofs.MuonHeapP
  Properties.FitProps Properties.SaverProps.
From Verif Require Import Base.XR.
Open Scope list_scope.

(* C99. After a fit the record is exactly the scatter batches that were made in this fit, in order, as the recorder looks at them, whatever was in
   it before; they are as many as the scatter inferrer was called. *)
Theorem C99_fit :
  forall W I P D D' (look : W -> res D) (view : D -> D') (E : env W I P) h c1 c2 (seen : W -> list D) n bs n_mu mu_bs validate o w rs cbs' a' tr,
  ~ In h c1 -> ~ In h c2 -> keeps E (c1 ++ c2) look seen ->
  fit (with_record (fun w => rmap view (look w)) E h) n bs n_mu mu_bs validate (c1 ++ h :: c2) (Wrapper o (w, rs)) = (Ok cbs', a', tr) ->
  exists new, seen (fst (w_w a')) = seen w ++ new /\ snd (w_w a') = map view new /\ length new = count is_scattered tr.
Proof.
  intros W I P D D' look view E h c1 c2 seen n bs n_mu mu_bs validate o w rs cbs' a' tr N1 N2 K H. unfold fit in H.
  destruct (e_mkdir _ _) as [[[]|e] w1] eqn:Em; [|discriminate]. cbn [w_w] in Em. change (lift_r (e_mkdir E) (w, rs) = (Ok tt, w1)) in Em.
  apply lift_r_snd in Em as (v & Em & ->). cbn [fst snd] in *. destruct (fit_body _ _ _ _) as [r s] eqn:EB. destruct r as [[]|e]; [|discriminate]. injection H as <- <- <-. cbn [w_w].
  destruct (body_record look view E h c1 c2 N1 N2 seen K (seen w) validate rs _ _ _ EB) as (l & A & B & C).
  { split; [|split; reflexivity]. cbn. exact (ks_mkdir _ _ _ _ K _ _ _ Em). }
  rewrite app_nil_r in A. exists l. split; [exact A|]. split; [exact B|]. cbn in C. lia.
Qed.
Print Assumptions C99_fit.

(* If the fit fails, the record is what it was before, or holds all batches of this fit but perhaps the last. *)
Theorem C99_interrupted :
  forall W I P D D' (look : W -> res D) (view : D -> D') (E : env W I P) h c1 c2 (seen : W -> list D) n bs n_mu mu_bs validate o w rs e a' tr,
  ~ In h c1 -> ~ In h c2 -> keeps E (c1 ++ c2) look seen ->
  fit (with_record (fun w => rmap view (look w)) E h) n bs n_mu mu_bs validate (c1 ++ h :: c2) (Wrapper o (w, rs)) = (Err e, a', tr) ->
  (seen (fst (w_w a')) = seen w /\ snd (w_w a') = rs) \/
  (exists new p, seen (fst (w_w a')) = seen w ++ new ++ p /\ snd (w_w a') = map view new /\ (length p <= 1)%nat).
Proof.
  intros W I P D D' look view E h c1 c2 seen n bs n_mu mu_bs validate o w rs e a' tr N1 N2 K H. unfold fit in H.
  destruct (e_mkdir _ _) as [[[]|x] w1] eqn:Em; cbn [w_w] in Em.
  - change (lift_r (e_mkdir E) (w, rs) = (Ok tt, w1)) in Em. apply lift_r_snd in Em as (v & Em & ->). cbn [fst snd] in *.
    destruct (fit_body _ _ _ _) as [r s] eqn:EB. destruct r as [[]|x]; [discriminate|]. injection H as <- <- <-. cbn [w_w].
    destruct (body_record look view E h c1 c2 N1 N2 seen K (seen w) validate rs _ _ _ EB) as [(A & B & _)|(l & p & A & B & C)]; [|left|right; exists l, p]; auto.
    split; [|split; reflexivity]. cbn. exact (ks_mkdir _ _ _ _ K _ _ _ Em).
  - change (lift_r (e_mkdir E) (w, rs) = (Err x, w1)) in Em. apply lift_r_snd in Em as (v & Em & ->). injection H as <- <- <-. left. cbn. split; [|reflexivity].
    exact (ks_mkdir _ _ _ _ K _ _ _ Em).
Qed.
Print Assumptions C99_interrupted.

(* The same for a prediction: only its own batches. *)
Theorem C99_predict :
  forall W I P D D' A (look : W -> res D) (view : D -> D') (E : env W I P) h c1 c2 (seen : W -> list D) (get_preds : W * list D' -> A) n_mu mu_bs pred_cb o w rs x a' cbs' tr,
  ~ In h c1 -> ~ In h c2 -> pred_cb <> h -> keeps E (c1 ++ c2 ++ [pred_cb]) look seen ->
  predict (with_record (fun w => rmap view (look w)) E h) get_preds n_mu mu_bs pred_cb (c1 ++ h :: c2) (Wrapper o (w, rs)) = (Ok x, a', cbs', tr) ->
  exists new, seen (fst (w_w a')) = seen w ++ new /\ snd (w_w a') = map view new /\ length new = count is_scattered tr.
Proof.
  intros W I P D D' A look view E h c1 c2 seen get_preds n_mu mu_bs pred_cb o w rs x a' cbs' tr N1 N2 N3 K H. unfold predict in H. rewrite <- app_assoc in H. cbn [app] in H.
  destruct (predict_body _ _ _) as [r s] eqn:EB. destruct r as [[]|e]; [|discriminate]. injection H as _ <- _ <-. cbn [w_w].
  assert (N2' : ~ In h (c2 ++ [pred_cb])) by (intros Hi; apply in_app_iff in Hi as [Hi|[Hi|[]]]; [now apply N2|congruence]).
  destruct (predict_record look view E h c1 (c2 ++ [pred_cb]) N1 N2' seen K (seen w) rs _ _ _ EB) as (l & B & B' & C).
  { split; [|split; reflexivity]. cbn. exact (ks_no_shuffle _ _ _ _ K w). }
  rewrite app_nil_r in B. exists l. split; [exact B|]. split; [exact B'|]. cbn in C. lia.
Qed.
Print Assumptions C99_predict.

(* How many batches: for each volume that was loaded as many as the number of muons asked for allows, in training and validation alike. *)
Lemma count_app' {I P} (p : item I P -> bool) l m : count p (l ++ m) = (count p l + count p m)%nat.
Proof. unfold count. now rewrite filter_app, app_length. Qed.
Lemma on_none {I P} c e (p : item I P -> bool) : (forall k, p (Call k e) = false) -> count p (on c e) = 0%nat.
Proof. intros H. unfold on, count. induction (c_cbs c) as [|k l IH]; [reflexivity|]. cbn. now rewrite H. Qed.
Lemma doc_scattered {I P} (c : cfg) :
  let k := (c_n_mu c / c_mu_bs c)%nat in
  let f := fun l : list (item I P) => count is_scattered l = (k * count is_loaded l)%nat in
  (forall l m, f l -> f m -> f (l ++ m)) /\ (forall e, f (on c e)) /\ (forall v, f (doc_vol c v)) /\ forall i, is_scattered i = false -> is_loaded i = false -> f [i].
Proof.
  intros k f. assert (FA : forall l m, f l -> f m -> f (l ++ m)) by (unfold f; intros l m A B; rewrite !count_app', A, B; lia).
  assert (FO : forall e, f (on c e)) by (intros e; unfold f; rewrite !on_none by reflexivity; lia).
  assert (FI : forall i, is_scattered i = false -> is_loaded i = false -> f [i]) by (intros i A B; unfold f, count; cbn [filter]; rewrite A, B; cbn; lia).
  split; [exact FA|]. split; [exact FO|]. split; [|exact FI]. intros v. unfold f, doc_vol. rewrite !count_app', !on_none by reflexivity.
  assert (M : forall n, count is_scattered (concat (repeat (@doc_mu I P c) n)) = n /\ count is_loaded (concat (repeat (@doc_mu I P c) n)) = 0%nat).
  { intros n. induction n as [|n [IH1 IH2]]; [split; reflexivity|]. cbn [repeat concat]. rewrite !count_app', IH1, IH2. unfold doc_mu. rewrite !count_app', !on_none by reflexivity. cbn. lia. }
  fold k. destruct (M k) as [-> ->]. destruct (v_loss v); cbn; lia.
Qed.
Lemma tame_record {W I P D} (look : W -> res D) (E : env W I P) h c1 c2 : ~ In h c1 -> ~ In h c2 -> tame E (c1 ++ c2) -> tame (with_record look E h) (c1 ++ h :: c2).
Proof.
  intros N1 N2 HT k e f [w rs] f' [w' rs'] Hk H. cbn in H. destruct (Nat.eqb_spec k h) as [->|N].
  - assert (f' = f) as ->; [|tauto]. destruct e; cbn in H; try (injection H as <- _ _; reflexivity). destruct (look w); [injection H as <- _ _; reflexivity|discriminate].
  - destruct (e_cb E k e (f, w)) as [r [g v]] eqn:Ec. injection H as -> -> -> _. refine (HT _ _ _ _ _ _ _ Ec). apply in_app_iff in Hk as [Hk|[Hk|Hk]]; [|congruence|]; apply in_app_iff; auto.
Qed.
Theorem C99_count :
  forall W I P D D' (look : W -> res D) (view : D -> D') (E : env W I P) h c1 c2 (seen : W -> list D) n bs n_mu mu_bs validate o w rs cbs' a' tr,
  ~ In h c1 -> ~ In h c2 -> keeps E (c1 ++ c2) look seen -> tame E (c1 ++ c2) -> (0 < bs)%nat ->
  fit (with_record (fun w => rmap view (look w)) E h) n bs n_mu mu_bs validate (c1 ++ h :: c2) (Wrapper o (w, rs)) = (Ok cbs', a', tr) ->
  length (snd (w_w a')) = (n_mu / mu_bs * count is_loaded tr)%nat.
Proof.
  intros W I P D D' look view E h c1 c2 seen n bs n_mu mu_bs validate o w rs cbs' a' tr N1 N2 K HT Hb H.
  destruct (C99_fit _ _ _ _ _ _ _ _ _ _ _ _ _ _ _ _ _ _ _ _ _ _ _ N1 N2 K H) as (new & _ & -> & L). rewrite map_length, L. clear L new.
  destruct (C41_order _ _ _ _ _ _ _ _ _ _ _ _ _ _ (tame_record (fun w => rmap view (look w)) E h c1 c2 N1 N2 HT) Hb H) as (xs & -> & _).
  set (c := Cfg (c1 ++ h :: c2) bs n_mu mu_bs). destruct (@doc_scattered I P c) as (FA & FO & FV & FI). cbn zeta in *. cbn [c_n_mu c_mu_bs c] in *.
  assert (FN : forall {A} (g : A -> list (item I P)) l, (forall x, count is_scattered (g x) = (n_mu / mu_bs * count is_loaded (g x))%nat) ->
    count is_scattered (flat_map g l) = (n_mu / mu_bs * count is_loaded (flat_map g l))%nat).
  { intros A g l Hg. induction l as [|x l IH]; [cbn; lia|]. cbn [flat_map]. apply FA; [apply Hg|exact IH]. }
  assert (F0 : count is_scattered (@nil (item I P)) = (n_mu / mu_bs * count is_loaded (@nil (item I P)))%nat) by (cbn; lia).
  assert (FU : forall skip m, count is_scattered (@doc_update I P c skip m) = (n_mu / mu_bs * count is_loaded (@doc_update I P c skip m))%nat).
  { intros skip m. unfold doc_update. repeat first [apply FO | apply FA | (apply FI; reflexivity) | exact F0 | match goal with |- context [match ?x with _ => _ end] => destruct x end]. }
  assert (FB : forall t k vs, count is_scattered (@doc_batch I P c t k vs) = (n_mu / mu_bs * count is_loaded (@doc_batch I P c t k vs))%nat).
  { intros t k vs. unfold doc_batch, doc_end. apply FA; [apply FO|]. apply FA; [apply FN, FV|]. apply FA; [now apply FI|]. apply FA; [apply FO|]. destruct t; [apply FU|exact F0]. }
  assert (FR : forall t k s, count is_scattered (@doc_run I P c t k s) = (n_mu / mu_bs * count is_loaded (@doc_run I P c t k s))%nat).
  { intros t k s. unfold doc_run, doc_scan. apply FA; [apply FO|]. apply FA; [|apply FO]. apply FA; [apply FN, FB|]. destruct (sc_rest s); [exact F0|]. apply FA; [apply FO|apply FN, FV]. }
  unfold doc_fit. apply FA; [apply FO|]. apply FA; [apply FO|]. apply FA; [|apply FO]. apply FN. intros x. unfold doc_epoch. apply FA; [now apply FI|]. apply FA; [apply FR|].
  destruct (ep_valid x); [|exact F0]. apply FA; [now apply FI|apply FR].
Qed.
Print Assumptions C99_count.

(* C99. ScatterRecord: the record is all PoCAs, of all muons of the batches made in the fit, that are in the passive volume; without any batch it cannot be read. *)
Definition pocas (s : scatters) : list v3 := map2 poca1 (sb_tracks s) (sb_coefs s).
Lemma read_map {A B} (g : A -> list B) new : get_record (map g new) = match new with [] => Err RuntimeError | _ => Ok (flat_map g new) end.
Proof. destruct new as [|x new]; [reflexivity|]. unfold get_record. cbn [map]. rewrite (flat_map_concat_map g (x :: new)). reflexivity. Qed.
Lemma filter_flat {A B} (p : B -> bool) (g : A -> list B) l : flat_map (fun x => filter p (g x)) l = filter p (flat_map g l).
Proof. induction l as [|x l IH]; [reflexivity|]. cbn. now rewrite filter_app, IH. Qed.
Theorem C99_pocas :
  forall W I P (sb : W -> res scatters) (E : env W I P) h c1 c2 (made : W -> list scatters) lw zr n bs n_mu mu_bs validate o w rs cbs' a' tr,
  ~ In h c1 -> ~ In h c2 -> keeps E (c1 ++ c2) sb made ->
  fit (with_record (fun w => rmap (record_pocas lw zr) (sb w)) E h) n bs n_mu mu_bs validate (c1 ++ h :: c2) (Wrapper o (w, rs)) = (Ok cbs', a', tr) ->
  exists new, made (fst (w_w a')) = made w ++ new /\
    match new with
    | [] => get_record (snd (w_w a')) = Err RuntimeError
    | _ => get_record (snd (w_w a')) = Ok (filter (in_passive1 lw zr) (flat_map pocas new))
    end.
Proof.
  intros W I P sb E h c1 c2 made lw zr n bs n_mu mu_bs validate o w rs cbs' a' tr N1 N2 K H.
  destruct (C99_fit _ _ _ _ _ _ _ _ _ _ _ _ _ _ _ _ _ _ _ _ _ _ _ N1 N2 K H) as (new & A & -> & _). exists new. split; [exact A|].
  rewrite read_map, <- filter_flat. now destruct new.
Qed.
Print Assumptions C99_pocas.
(* being in the passive volume, for a PoCA: finite, and in the half-open box *)
Theorem C99_inside :
  forall lw zr p, in_passive1 lw zr p = true <->
  exists x y z, p = V3 (Fin x) (Fin y) (Fin z) /\ 0 <= x < fst lw /\ 0 <= y < snd lw /\ fst zr <= z < snd zr.
Proof.
  intros lw zr [px py pz]. unfold in_passive1. cbn [vx vy vz]. rewrite !Bool.andb_true_iff. split.
  - intros (((((A1 & A2) & A3) & A4) & A5) & A6). destruct px as [x| | |], py as [y| | |], pz as [z| | |]; try discriminate. exists x, y, z.
    split; [reflexivity|]. cbn in *. unfold Rleb, Rltb in *. repeat match goal with H : context [Rle_dec ?a ?b] |- _ => destruct (Rle_dec a b); [|discriminate] | H : context [Rlt_dec ?a ?b] |- _ => destruct (Rlt_dec a b); [|discriminate] end. lra.
  - intros (x & y & z & [= -> -> ->] & A & B & C). cbn. unfold Rleb, Rltb. repeat split; repeat match goal with |- context [Rle_dec ?a ?b] => destruct (Rle_dec a b) | |- context [Rlt_dec ?a ?b] => destruct (Rlt_dec a b) end; auto; lra.
Qed.
Print Assumptions C99_inside.

(* C99. HitRecord: the record is the hits of all muons of the batches made in the fit, one row per muon; none is left out. *)
Theorem C99_hits :
  forall W I P (sb : W -> res scatters) (E : env W I P) h c1 c2 (made : W -> list scatters) n bs n_mu mu_bs validate o w rs cbs' a' tr,
  ~ In h c1 -> ~ In h c2 -> keeps E (c1 ++ c2) sb made ->
  fit (with_record (fun w => rmap record_hits (sb w)) E h) n bs n_mu mu_bs validate (c1 ++ h :: c2) (Wrapper o (w, rs)) = (Ok cbs', a', tr) ->
  exists new, made (fst (w_w a')) = made w ++ new /\
    match new with
    | [] => get_record (snd (w_w a')) = Err RuntimeError
    | _ => get_record (snd (w_w a')) = Ok (map mh_reco (flat_map sb_hits new))
    end.
Proof.
  intros W I P sb E h c1 c2 made n bs n_mu mu_bs validate o w rs cbs' a' tr N1 N2 K H.
  destruct (C99_fit _ _ _ _ _ _ _ _ _ _ _ _ _ _ _ _ _ _ _ _ _ _ _ N1 N2 K H) as (new & A & -> & _). exists new. split; [exact A|].
  rewrite read_map. assert (F : flat_map record_hits new = map mh_reco (flat_map sb_hits new)) by (clear; induction new as [|s new IH]; [reflexivity|]; cbn [flat_map]; now rewrite IH, map_app).
  rewrite F. now destruct new.
Qed.
Print Assumptions C99_hits.

(* C99. The column "layer" of HitRecord numbers the panels from the top, as long as all muons were recorded with the panels at the same heights, no two alike. *)
Definition falling (zs : list R) : Prop := forall i j a b, (i < j)%nat -> nth_error zs i = Some a -> nth_error zs j = Some b -> b < a.
Definition rising (zs : list R) : Prop := StronglySorted Rlt zs.
Lemma add_in x l : rising l -> In x l -> add_category x l = l.
Proof.
  induction l as [|y l IH]; intros S Hx; [destruct Hx|]. apply StronglySorted_inv in S as [S F]. cbn [add_category]. unfold Rltb, Reqb.
  destruct (Rlt_dec x y) as [L|L].
  - exfalso. destruct Hx as [->|Hx]; [lra|]. rewrite Forall_forall in F. specialize (F _ Hx). lra.
  - destruct (Req_EM_T x y) as [->|N]; [reflexivity|]. destruct Hx as [->|Hx]; [congruence|]. now rewrite IH.
Qed.
Lemma cat_rising l : rising l -> categories l = l.
Proof.
  induction l as [|x l IH]; intros S; [reflexivity|]. apply StronglySorted_inv in S as [S F]. change (categories (x :: l)) with (add_category x (categories l)). rewrite IH by exact S.
  destruct l as [|y l]; [reflexivity|]. cbn [add_category]. unfold Rltb. inversion F; subst. destruct (Rlt_dec x y); [reflexivity|contradiction].
Qed.
Lemma cat_app l m : categories m = l -> rising l -> categories (l ++ m) = l.
Proof.
  intros Hm S. unfold categories. rewrite fold_right_app. fold (categories m). rewrite Hm.
  assert (G : forall k, incl k l -> fold_right add_category l k = l); [|apply G, incl_refl].
  intros k. induction k as [|x k IH]; intros Hk; [reflexivity|]. cbn [fold_right]. rewrite IH by (intros a Ha; apply Hk; now right). apply add_in; [exact S|]. apply Hk. now left.
Qed.
Lemma cat_repeat l n : rising l -> categories (concat (repeat l (S n))) = l.
Proof. intros S. induction n as [|n IH]; [cbn [repeat concat]; rewrite app_nil_r; now apply cat_rising|]. cbn [repeat concat] in *. now apply cat_app. Qed.
Lemma index_at l : rising l -> forall i x, nth_error l i = Some x -> index_of x l = Some i.
Proof.
  induction l as [|y l IH]; intros S i x Hi; [destruct i; discriminate|]. apply StronglySorted_inv in S as [S F]. destruct i as [|i].
  - injection Hi as ->. cbn. unfold Reqb. destruct (Req_EM_T x x); [reflexivity|congruence].
  - cbn [nth_error] in Hi. cbn [index_of]. unfold Reqb. destruct (Req_EM_T x y) as [->|N]; [|now rewrite (IH S i x Hi)].
    exfalso. rewrite Forall_forall in F. specialize (F y (nth_error_In _ _ Hi)). lra.
Qed.
Lemma falling_rising h zs : falling zs -> rising (map (fun z => h - z) zs).
Proof.
  induction zs as [|z zs IH]; intros F; [constructor|]. cbn [map]. constructor.
  - apply IH. intros i j a b Hij Ha Hb. exact (F (S i) (S j) a b ltac:(lia) Ha Hb).
  - rewrite Forall_forall. intros d Hd. apply in_map_iff in Hd as (b & <- & Hb). apply In_nth_error in Hb as [j Hj]. specialize (F 0%nat (S j) z b ltac:(lia) eq_refl Hj). lra.
Qed.
Lemma map_seq_idx l : rising l -> map (fun x => index_of x l) l = map Some (seq 0 (length l)).
Proof.
  intros S. apply MuonHeapP.nth_error_ext'. intros i. destruct (nth_error l i) as [x|] eqn:Hi.
  - rewrite (map_nth_error _ _ _ Hi), (index_at l S i x Hi). assert (L : (i < length l)%nat) by (apply nth_error_Some; congruence).
    rewrite (map_nth_error Some i (seq 0 (length l)) (d := i)); [reflexivity|]. rewrite (nth_error_nth' _ 0%nat) by now rewrite seq_length. now rewrite seq_nth.
  - rewrite (proj2 (nth_error_None _ _)), (proj2 (nth_error_None _ _)); [reflexivity|rewrite map_length, seq_length|rewrite map_length]; now apply nth_error_None.
Qed.
Theorem C99_layers :
  forall h zs rows, falling zs -> Forall (fun hits => map vz hits = map Fin zs) rows ->
  hit_layers h rows = concat (repeat (map Some (seq 0 (length zs))) (length rows)).
Proof.
  intros h zs rows F HR. pose proof (falling_rising h zs F) as HS. set (ds := map (fun z => h - z) zs) in *.
  assert (E1 : map (fun p => match vz p with Fin z => Some (h - z) | _ => None end) (concat rows) = map Some (concat (repeat ds (length rows)))).
  { clear F HS. induction HR as [|r rows Hr HR IH]; [reflexivity|]. cbn [concat repeat length]. rewrite !map_app, IH. f_equal. unfold ds. rewrite map_map.
    rewrite <- (map_map vz (fun v => match v with Fin z => Some (h - z) | _ => None end)), Hr, map_map. reflexivity. }
  unfold hit_layers. rewrite E1. clear E1. cbv zeta. rewrite map_map. destruct rows as [|r rows]; [reflexivity|]. cbn [length].
  rewrite flat_map_concat_map, map_map. cbn beta iota. rewrite <- flat_map_concat_map. rewrite (flat_map_concat_map (fun x => [x])).
  replace (concat (map (fun x => [x]) (concat (repeat ds (S (length rows)))))) with (concat (repeat ds (S (length rows)))) by (generalize (concat (repeat ds (S (length rows)))); intros l; induction l as [|x l IH]; [reflexivity|]; cbn; now rewrite <- IH).
  rewrite cat_repeat by exact HS. rewrite concat_map. f_equal. generalize (S (length rows)). intros n.
  assert (L : length zs = length ds) by (unfold ds; now rewrite map_length). rewrite L, <- map_seq_idx by exact HS. clear. induction n as [|n IH]; [reflexivity|]. cbn [repeat map]. now rewrite IH.
Qed.
Print Assumptions C99_layers.

(* examples *)
Definition at_z (z : R) : v3 := V3 (Fin 0) (Fin 0) (Fin z).
Example C99_case_layers : falling [9; 8; 2; 1] /\ hit_layers 10 [map at_z [9; 8; 2; 1]; map at_z [9; 8; 2; 1]] = map Some [0; 1; 2; 3; 0; 1; 2; 3]%nat.
Proof.
  assert (F : falling [9; 8; 2; 1]).
  { intros i j a b Hij Ha Hb. do 4 (destruct i as [|i]; [do 4 (destruct j as [|j]; [try lia; injection Ha as <-; injection Hb as <-; try lra|]); destruct j; discriminate|]). destruct i; discriminate. }
  split; [exact F|]. rewrite (C99_layers 10 [9; 8; 2; 1]); [reflexivity|exact F|]. repeat constructor.
Qed.
(* the world counts the updates, and after each scatter lists what was seen *)
Definition rec_env cb n_trn n_val : env (nat * list nat) nat nat :=
  let no {A} (a : A) (w : nat * list nat) : res A * (nat * list nat) := (Ok a, w) in
  Fit.Env cb (fun d => match d with TrnData => n_trn | ValData => n_val | TstData => 2%nat end)
    (fun _ i => no i) (fun _ => no tt) (no tt) (fun _ => no tt) (no tt) (fun w => (Ok tt, (fst w, snd w ++ [fst w]))) (no tt) (no (Some 4%nat))
    (Some (fun p => no (INR p))) (no tt) (fun _ => no tt) (fun w => (Ok tt, (S (fst w), snd w))) (no tt) (no tt) (no tt) (no tt) (fun w => w).
Definition still (k : nat) (e : event) (x : fp nat * (nat * list nat)) : res unit * (fp nat * (nat * list nat)) := (Ok tt, x).
Definition last_seen (w : nat * list nat) : res nat := match snd w with [] => Err AttributeError | l => Ok (last l 0%nat) end.
Lemma rec_keeps n1 n2 cbs : keeps (rec_env still n1 n2) cbs last_seen snd.
Proof.
  split; cbn.
  - intros w w' [= <-]. exists (fst w). cbn. split; [|reflexivity]. unfold last_seen. cbn [snd]. destruct (snd w ++ [fst w]) eqn:El; [destruct (snd w); discriminate|]. rewrite <- El, last_last. reflexivity.
  - discriminate.
  - intros i g w r w'. destruct i; cbn; try discriminate; intros [= <-] Hs [= _ <-]; first [discriminate|reflexivity].
  - intros k e f w r f' w' _ [= _ _ <-]. auto.
  - intros _ i w r w' [= _ <-]. reflexivity.
  - intros w r w' [= _ <-]. reflexivity.
  - intros f p w r w' [= <-] [= _ <-]. reflexivity.
  - intros w r w' [= _ <-]. reflexivity.
  - reflexivity.
Qed.
Lemma rec_tame n1 n2 cbs : tame (rec_env still n1 n2) cbs.
Proof. intros k e f w f' w' _ [= <- <-]. auto 12. Qed.
(* two epochs of two batches, each of one volume with two muon batches, and validation of one volume; what was recorded before is gone *)
Lemma rec_run {D} (view : nat -> D) old : exists a tr,
  fit (with_record (fun w => rmap view (last_seen w)) (rec_env still 2 1) 7) 2 1 10 5 true ([3] ++ 7 :: [4])%nat (Wrapper None ((0%nat, [5%nat]), [view old])) = (Ok [3; 7; 4]%nat, a, tr) /\
  snd (w_w a) = map view [0; 0; 1; 1; 2; 2; 2; 2; 3; 3; 4; 4]%nat /\ snd (fst (w_w a)) = (5 :: [0; 0; 1; 1; 2; 2; 2; 2; 3; 3; 4; 4])%nat.
Proof. do 2 eexists. split; [vm_compute; reflexivity|]. split; vm_compute; reflexivity. Qed.
Example C99_case : exists a tr,
  fit (with_record (fun w => rmap (fun d => d) (last_seen w)) (rec_env still 2 1) 7) 2 1 10 5 true ([3] ++ 7 :: [4])%nat (Wrapper None ((0%nat, [5%nat]), [9%nat])) = (Ok [3; 7; 4]%nat, a, tr) /\
  snd (w_w a) = [0; 0; 1; 1; 2; 2; 2; 2; 3; 3; 4; 4]%nat.
Proof. destruct (rec_run (fun d => d) 9%nat) as (a & tr & H & A & _). exists a, tr. split; [exact H|]. rewrite A. apply map_id. Qed.

(* Not so in training: the panels move in an update, and the same panel then has two layers.  Here with two panels: one that every update moves, and one below. *)
Theorem C99_layers_refuted :
  exists (E : env (nat * list nat) nat nat) (view : nat -> list (list v3)) a tr rows,
  keeps E [] last_seen snd /\ tame E [] /\
  (forall n, exists z, view n = [map at_z [z; 1]] /\ 1 < z) /\
  fit (with_record (fun w => rmap view (last_seen w)) E 7) 1 1 5 5 false [7%nat] (Wrapper None ((0%nat, []), [])) = (Ok [7%nat], a, tr) /\
  get_record (snd (w_w a)) = Ok rows /\ hit_layers 10 rows = [Some 1; Some 2; Some 0; Some 2]%nat.
Proof.
  exists (rec_env still 2 1), (fun n => [map at_z [INR n + 5; 1]]).
  assert (H : forall (view : nat -> list (list v3)), exists a tr, fit (with_record (fun w => rmap view (last_seen w)) (rec_env still 2 1) 7) 1 1 5 5 false [7%nat] (Wrapper None ((0%nat, []), [])) = (Ok [7%nat], a, tr) /\ snd (w_w a) = [view 0%nat; view 1%nat]).
  { intros view. do 2 eexists. split; [vm_compute; reflexivity|]. vm_compute. reflexivity. }
  destruct (H (fun n => [map at_z [INR n + 5; 1]])) as (a & tr & Hf & Hs). exists a, tr, [map at_z [INR 0 + 5; 1]; map at_z [INR 1 + 5; 1]].
  split; [apply rec_keeps|]. split; [apply rec_tame|]. split; [intros n; exists (INR n + 5); split; [reflexivity|]; pose proof (pos_INR n); lra|]. split; [exact Hf|]. split; [now rewrite Hs|].
  unfold hit_layers. cbn [concat map app at_z vz flat_map]. change (INR 0) with 0. change (INR 1) with 1.
  assert (E0 : categories [10 - (0 + 5); 10 - 1; 10 - (1 + 5); 10 - 1] = [10 - (1 + 5); 10 - (0 + 5); 10 - 1]).
  { unfold categories. cbn [fold_right]. cbn [add_category]. unfold Rltb, Reqb. destruct (Rlt_dec (10 - (1 + 5)) (10 - 1)); [|lra]. cbn [add_category]. unfold Rltb, Reqb.
    destruct (Rlt_dec (10 - 1) (10 - (1 + 5))); [lra|]. destruct (Req_EM_T (10 - 1) (10 - (1 + 5))); [lra|]. destruct (Rlt_dec (10 - 1) (10 - 1)); [lra|]. destruct (Req_EM_T (10 - 1) (10 - 1)); [|lra].
    cbn [add_category]. unfold Rltb, Reqb. destruct (Rlt_dec (10 - (0 + 5)) (10 - (1 + 5))); [lra|]. destruct (Req_EM_T (10 - (0 + 5)) (10 - (1 + 5))); [lra|]. destruct (Rlt_dec (10 - (0 + 5)) (10 - 1)); [reflexivity|lra]. }
  rewrite E0. cbn [index_of]. unfold Reqb. destruct (Req_EM_T (10 - (0 + 5)) (10 - (1 + 5))); [lra|]. destruct (Req_EM_T (10 - (0 + 5)) (10 - (0 + 5))); [|lra].
  destruct (Req_EM_T (10 - 1) (10 - (1 + 5))); [lra|]. destruct (Req_EM_T (10 - 1) (10 - (0 + 5))); [lra|]. destruct (Req_EM_T (10 - 1) (10 - 1)); [|lra].
  destruct (Req_EM_T (10 - (1 + 5)) (10 - (1 + 5))); [reflexivity|lra].
Qed.
Print Assumptions C99_layers_refuted.
