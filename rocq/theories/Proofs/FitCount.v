(* Counting what happens in the documented traces. *)
From Coq Require Import Lia Lra.
From Verif Require Import Base.RUtil Model.Fit Spec.FitSpec Proofs.FitP Proofs.FitScan Proofs.FitAll.
Open Scope list_scope.

Section C.
Context {I P : Type}.
Notation items := (list (item I P)).
Variable c : cfg.
Definition no_call (p : item I P -> bool) : Prop := forall k e, p (Call k e) = false.
Lemma count_on p e : no_call p -> count p (on c e) = 0%nat.
Proof. intros H. unfold on, count. induction (c_cbs c) as [|k l IH]; [reflexivity|]. cbn. rewrite H. exact IH. Qed.
Lemma count_concat_zero p (l : items) n : count p l = 0%nat -> count p (concat (repeat l n)) = 0%nat.
Proof. intros H. induction n as [|n IH]; [reflexivity|]. cbn [repeat concat]. rewrite count_app. lia. Qed.
Lemma count_flat {A} p (f : A -> items) (l : list A) : count p (flat_map f l) = list_sum (map (fun a => count p (f a)) l).
Proof. induction l as [|a l IH]; [reflexivity|]. cbn [flat_map map list_sum fold_right]. rewrite count_app, IH. reflexivity. Qed.
Lemma list_sum_zero {A} (f : A -> nat) l : (forall a, f a = 0%nat) -> list_sum (map f l) = 0%nat.
Proof. intros H. induction l as [|a l IH]; [reflexivity|]. change (f a + list_sum (map f l) = 0)%nat. now rewrite H, IH. Qed.
Lemma list_sum_const {A} (f : A -> nat) k l : Forall (fun a => f a = k) l -> list_sum (map f l) = (length l * k)%nat.
Proof. induction 1 as [|a l H _ IH]; [reflexivity|]. change (f a + list_sum (map f l) = S (length l) * k)%nat. rewrite H. lia. Qed.

(* steps *)
Lemma nc_step : no_call is_step. Proof. now intros k e. Qed.
Lemma nc_loaded : no_call is_loaded. Proof. now intros k e. Qed.
Lemma nc_zero : no_call is_zero. Proof. now intros k e. Qed.
Lemma nc_conform : no_call is_conform. Proof. now intros k e. Qed.
Ltac counts := repeat rewrite ?count_app, ?count_on by (apply nc_step || apply nc_loaded || apply nc_zero || apply nc_conform).
Lemma mu_count p : no_call p -> p (Generated (c_mu_bs c)) = false -> p Crossed = false -> p Scattered = false -> p Added = false -> count p (doc_mu c) = 0%nat.
Proof.
  intros H0 H1 H2 H3 H4. unfold doc_mu. rewrite !count_app, !count_on by exact H0. unfold count. cbn [filter]. rewrite H1, H2, H3, H4. reflexivity.
Qed.
Lemma vol_count p v : no_call p -> p (Generated (c_mu_bs c)) = false -> p Crossed = false -> p Scattered = false -> p Added = false ->
  p NewInferrer = false -> p (Predicted (v_pred v)) = false -> (forall l, p (Loss l) = false) ->
  count p (doc_vol c v) = if p (Loaded (v_item v)) then 1%nat else 0%nat.
Proof.
  intros H0 H1 H2 H3 H4 H5 H6 H7. unfold doc_vol. rewrite !count_app, !count_on by exact H0.
  rewrite (count_concat_zero p) by (now apply mu_count). unfold count. cbn [filter]. rewrite H5, H6.
  destruct (v_loss v); cbn [filter length]; rewrite ?H7; destruct (p (Loaded (v_item v))); reflexivity.
Qed.
Lemma batch_steps train skip (vs : list (vol I P)) : count is_step (doc_batch c train skip vs) = if (train && negb skip)%bool then has_mean vs else 0%nat.
Proof.
  unfold doc_batch, doc_end. counts. rewrite count_flat, list_sum_zero by (intros v; now rewrite vol_count).
  unfold mean_loss, has_mean, doc_update. destruct train; cbn [andb]; [|reflexivity]. counts.
  destruct skip; cbn [negb]; destruct (losses vs); reflexivity.
Qed.
Lemma scan_steps train skip (s : scan I P) : count is_step (doc_scan c train skip s) = if (train && negb skip)%bool then list_sum (map has_mean (sc_batches s)) else 0%nat.
Proof.
  unfold doc_scan. counts. rewrite count_flat.
  replace (count is_step (match sc_rest s with [] => [] | _ :: _ => on c VolumeBatchBegin ++ flat_map (doc_vol c) (sc_rest s) end)) with 0%nat.
  - rewrite Nat.add_0_r. destruct (train && negb skip)%bool eqn:E.
    + f_equal. apply map_ext. intros vs. rewrite batch_steps. now rewrite E.
    + apply list_sum_zero. intros vs. rewrite batch_steps. now rewrite E.
  - destruct (sc_rest s) as [|v l]; [reflexivity|]. counts. rewrite count_flat, list_sum_zero; [reflexivity|]. intros w. now rewrite vol_count.
Qed.
Lemma epoch_steps (x : epoch I P) : count is_step (doc_epoch c x) = if ep_skip x then 0%nat else list_sum (map has_mean (sc_batches (ep_train x))).
Proof.
  unfold doc_epoch, doc_run. counts. rewrite scan_steps. cbn [andb].
  replace (count is_step (match ep_valid x with Some v => [SetEval] ++ on c EpochBegin ++ doc_scan c false (ep_skip x) v ++ on c EpochEnd | None => [] end)) with 0%nat.
  - destruct (ep_skip x); cbn; lia.
  - destruct (ep_valid x); [|reflexivity]. counts. rewrite scan_steps. reflexivity.
Qed.
Lemma fit_steps (xs : list (epoch I P)) : count is_step (doc_fit c xs) = list_sum (map (fun x => if ep_skip x then 0%nat else list_sum (map has_mean (sc_batches (ep_train x)))) xs).
Proof. unfold doc_fit. counts. rewrite count_flat. cbn [plus]. rewrite Nat.add_0_r. f_equal. apply map_ext. intros x. apply epoch_steps. Qed.
(* updates that are prepared *)
Lemma batch_zeros train skip (vs : list (vol I P)) : count is_zero (doc_batch c train skip vs) = if train then 1%nat else 0%nat.
Proof.
  unfold doc_batch, doc_end. counts. rewrite count_flat, list_sum_zero by (intros v; now rewrite vol_count).
  unfold mean_loss, doc_update. destruct train; [|reflexivity]. counts. destruct skip; destruct (losses vs); reflexivity.
Qed.
Lemma batch_conforms train skip (vs : list (vol I P)) : count is_conform (doc_batch c train skip vs) = if train then 1%nat else 0%nat.
Proof.
  unfold doc_batch, doc_end. counts. rewrite count_flat, list_sum_zero by (intros v; now rewrite vol_count).
  unfold mean_loss, doc_update. destruct train; [|reflexivity]. counts. destruct skip; destruct (losses vs); reflexivity.
Qed.
Lemma scan_zeros train skip (s : scan I P) : count is_zero (doc_scan c train skip s) = if train then length (sc_batches s) else 0%nat.
Proof.
  unfold doc_scan. counts. rewrite count_flat.
  replace (count is_zero (match sc_rest s with [] => [] | _ :: _ => on c VolumeBatchBegin ++ flat_map (doc_vol c) (sc_rest s) end)) with 0%nat.
  - rewrite Nat.add_0_r. rewrite (list_sum_const _ (if train then 1%nat else 0%nat)); [destruct train; lia|]. apply Forall_forall. intros vs _. apply batch_zeros.
  - destruct (sc_rest s) as [|v l]; [reflexivity|]. counts. rewrite count_flat, list_sum_zero; [reflexivity|]. intros w. now rewrite vol_count.
Qed.
Lemma scan_conforms train skip (s : scan I P) : count is_conform (doc_scan c train skip s) = if train then length (sc_batches s) else 0%nat.
Proof.
  unfold doc_scan. counts. rewrite count_flat.
  replace (count is_conform (match sc_rest s with [] => [] | _ :: _ => on c VolumeBatchBegin ++ flat_map (doc_vol c) (sc_rest s) end)) with 0%nat.
  - rewrite Nat.add_0_r. rewrite (list_sum_const _ (if train then 1%nat else 0%nat)); [destruct train; lia|]. apply Forall_forall. intros vs _. apply batch_conforms.
  - destruct (sc_rest s) as [|v l]; [reflexivity|]. counts. rewrite count_flat, list_sum_zero; [reflexivity|]. intros w. now rewrite vol_count.
Qed.
Lemma epoch_zeros (x : epoch I P) : count is_zero (doc_epoch c x) = length (sc_batches (ep_train x)).
Proof.
  unfold doc_epoch, doc_run. counts. rewrite scan_zeros.
  replace (count is_zero (match ep_valid x with Some v => [SetEval] ++ on c EpochBegin ++ doc_scan c false (ep_skip x) v ++ on c EpochEnd | None => [] end)) with 0%nat; [cbn; lia|].
  destruct (ep_valid x); [|reflexivity]. counts. rewrite scan_zeros. reflexivity.
Qed.
Lemma epoch_conforms (x : epoch I P) : count is_conform (doc_epoch c x) = length (sc_batches (ep_train x)).
Proof.
  unfold doc_epoch, doc_run. counts. rewrite scan_conforms.
  replace (count is_conform (match ep_valid x with Some v => [SetEval] ++ on c EpochBegin ++ doc_scan c false (ep_skip x) v ++ on c EpochEnd | None => [] end)) with 0%nat; [cbn; lia|].
  destruct (ep_valid x); [|reflexivity]. counts. rewrite scan_conforms. reflexivity.
Qed.
Lemma fit_zeros (xs : list (epoch I P)) : count is_zero (doc_fit c xs) = list_sum (map (fun x => length (sc_batches (ep_train x))) xs).
Proof. unfold doc_fit. counts. rewrite count_flat. cbn [plus]. rewrite Nat.add_0_r. f_equal. apply map_ext. intros x. apply epoch_zeros. Qed.
Lemma fit_conforms (xs : list (epoch I P)) : count is_conform (doc_fit c xs) = list_sum (map (fun x => length (sc_batches (ep_train x))) xs).
Proof. unfold doc_fit. counts. rewrite count_flat. cbn [plus]. rewrite Nat.add_0_r. f_equal. apply map_ext. intros x. apply epoch_conforms. Qed.
(* volumes *)
Lemma vols_loaded (vs : list (vol I P)) : count is_loaded (flat_map (doc_vol c) vs) = length vs.
Proof. rewrite count_flat, (list_sum_const _ 1); [lia|]. apply Forall_forall. intros v _. now rewrite vol_count. Qed.
Lemma batch_loaded train skip (vs : list (vol I P)) : count is_loaded (doc_batch c train skip vs) = length vs.
Proof.
  unfold doc_batch, doc_end. counts. rewrite vols_loaded. destruct train; cbn [count filter length is_loaded]; unfold doc_update; counts.
  - destruct (mean_loss c vs); destruct skip; unfold count; cbn; lia.
  - unfold count; cbn; lia.
Qed.
Lemma scan_loaded train skip (s : scan I P) : count is_loaded (doc_scan c train skip s) = length (scan_vols s).
Proof.
  unfold doc_scan, scan_vols. counts. rewrite count_flat, app_length. f_equal.
  - induction (sc_batches s) as [|vs l IH]; [reflexivity|]. cbn [map list_sum fold_right concat]. rewrite app_length, batch_loaded. f_equal. exact IH.
  - destruct (sc_rest s) as [|v l]; [reflexivity|]. counts. now rewrite vols_loaded.
Qed.
Lemma epoch_loaded (x : epoch I P) : count is_loaded (doc_epoch c x) = length (epoch_vols x).
Proof.
  unfold doc_epoch, epoch_vols, doc_run. rewrite app_length. counts. rewrite scan_loaded.
  destruct (ep_valid x); [counts; rewrite scan_loaded; unfold count; cbn; lia|unfold count; cbn; lia].
Qed.
Lemma fit_loaded (xs : list (epoch I P)) : count is_loaded (doc_fit c xs) = list_sum (map (fun x => length (epoch_vols x)) xs).
Proof. unfold doc_fit. counts. rewrite count_flat. cbn [plus]. rewrite Nat.add_0_r. f_equal. apply map_ext. intros x. apply epoch_loaded. Qed.
Lemma shape_vols n (s : scan I P) : (0 < c_bs c)%nat -> scan_shape c n s -> length (scan_vols s) = scanned n (c_bs c).
Proof.
  intros Hb (H1 & H2 & H3). unfold scan_vols, scanned. rewrite app_length, H3.
  assert (Hl : length (concat (sc_batches s)) = (length (sc_batches s) * c_bs c)%nat).
  { clear H1. induction H2 as [|vs l H _ IH]; [reflexivity|]. cbn. rewrite app_length. lia. }
  rewrite Hl, H1. destruct (Nat.ltb_spec n (c_bs c)); [rewrite Nat.div_small by lia|]; lia.
Qed.

(* the losses of the batches *)
Lemma means_app (l m : items) : means (l ++ m) = means l ++ means m. Proof. apply flat_map_app. Qed.
Lemma backs_app (l m : items) : backs (l ++ m) = backs l ++ backs m. Proof. apply flat_map_app. Qed.
Lemma means_on e : means (on c e : items) = [].
Proof. unfold on. induction (c_cbs c) as [|k l IH]; [reflexivity|]. cbn. exact IH. Qed.
Lemma backs_on e : backs (on c e : items) = [].
Proof. unfold on. induction (c_cbs c) as [|k l IH]; [reflexivity|]. cbn. exact IH. Qed.
Lemma flat_nil {A B} (f : A -> list B) l : (forall a, f a = []) -> flat_map f l = [].
Proof. intros H. induction l as [|a l IH]; [reflexivity|]. cbn. now rewrite H, IH. Qed.
Lemma means_flat {A} (f : A -> items) l : means (flat_map f l) = flat_map (fun a => means (f a)) l.
Proof. induction l as [|a l IH]; [reflexivity|]. cbn [flat_map]. now rewrite means_app, IH. Qed.
Lemma backs_flat {A} (f : A -> items) l : backs (flat_map f l) = flat_map (fun a => backs (f a)) l.
Proof. induction l as [|a l IH]; [reflexivity|]. cbn [flat_map]. now rewrite backs_app, IH. Qed.
Lemma means_concat (l : items) n : means l = [] -> means (concat (repeat l n)) = [].
Proof. intros H. induction n as [|n IH]; [reflexivity|]. cbn [repeat concat]. now rewrite means_app, H, IH. Qed.
Lemma backs_concat (l : items) n : backs l = [] -> backs (concat (repeat l n)) = [].
Proof. intros H. induction n as [|n IH]; [reflexivity|]. cbn [repeat concat]. now rewrite backs_app, H, IH. Qed.
Lemma means_vol v : means (doc_vol c v : items) = [].
Proof.
  unfold doc_vol. rewrite !means_app, !means_on, means_concat by (unfold doc_mu; rewrite !means_app, !means_on; reflexivity). now destruct (v_loss v).
Qed.
Lemma backs_vol v : backs (doc_vol c v : items) = [].
Proof.
  unfold doc_vol. rewrite !backs_app, !backs_on, backs_concat by (unfold doc_mu; rewrite !backs_app, !backs_on; reflexivity). now destruct (v_loss v).
Qed.
Lemma means_batch train skip (vs : list (vol I P)) : means (doc_batch c train skip vs) = [mean_loss c vs].
Proof.
  unfold doc_batch, doc_end. rewrite !means_app, !means_on, means_flat, flat_nil by apply means_vol. cbn [app means flat_map].
  destruct train; [|reflexivity]. unfold doc_update. rewrite !means_app, !means_on. destruct skip; destruct (mean_loss c vs); reflexivity.
Qed.
Lemma backs_batch train skip (vs : list (vol I P)) : backs (doc_batch c train skip vs) = if train then match mean_loss c vs with Some l => [l] | None => [] end else [].
Proof.
  unfold doc_batch, doc_end. rewrite !backs_app, !backs_on, backs_flat, flat_nil by apply backs_vol. cbn [app backs flat_map].
  destruct train; [|reflexivity]. unfold doc_update. rewrite !backs_app, !backs_on. destruct skip; destruct (mean_loss c vs); reflexivity.
Qed.
Lemma flat_single {A B} (f : A -> B) l : flat_map (fun a => [f a]) l = map f l.
Proof. induction l as [|a l IH]; [reflexivity|]. cbn. now rewrite IH. Qed.
Lemma means_scan train skip (s : scan I P) : means (doc_scan c train skip s) = map (mean_loss c) (sc_batches s).
Proof.
  unfold doc_scan. rewrite means_app, means_flat. replace (means (match sc_rest s with [] => [] | _ :: _ => on c VolumeBatchBegin ++ flat_map (doc_vol c) (sc_rest s) end)) with (@nil (option R)).
  - rewrite app_nil_r. rewrite <- flat_single. apply flat_map_ext. intros vs. apply means_batch.
  - destruct (sc_rest s) as [|v l]; [reflexivity|]. rewrite means_app, means_on, means_flat, flat_nil; [reflexivity|apply means_vol].
Qed.
Lemma backs_scan train skip (s : scan I P) : backs (doc_scan c train skip s) =
  if train then flat_map (fun vs => match mean_loss c vs with Some l => [l] | None => [] end) (sc_batches s) else [].
Proof.
  unfold doc_scan. rewrite backs_app, backs_flat. replace (backs (match sc_rest s with [] => [] | _ :: _ => on c VolumeBatchBegin ++ flat_map (doc_vol c) (sc_rest s) end)) with (@nil R).
  - rewrite app_nil_r. destruct train.
    + apply flat_map_ext. intros vs. apply (backs_batch true).
    + apply flat_nil. intros vs. apply (backs_batch false).
  - destruct (sc_rest s) as [|v l]; [reflexivity|]. rewrite backs_app, backs_on, backs_flat, flat_nil; [reflexivity|apply backs_vol].
Qed.
Lemma means_fit (xs : list (epoch I P)) : means (doc_fit c xs) =
  flat_map (fun x => map (mean_loss c) (sc_batches (ep_train x) ++ match ep_valid x with Some v => sc_batches v | None => [] end)) xs.
Proof.
  unfold doc_fit. rewrite !means_app, !means_on, means_flat. cbn [app]. rewrite app_nil_r. apply flat_map_ext. intros x.
  unfold doc_epoch, doc_run. rewrite !means_app, !means_on, means_scan. rewrite map_app. destruct (ep_valid x).
  - rewrite !means_app, !means_on, means_scan. cbn [means flat_map app]. now rewrite !app_nil_r.
  - cbn [means flat_map app]. now rewrite !app_nil_r.
Qed.
Lemma backs_fit (xs : list (epoch I P)) : backs (doc_fit c xs) =
  flat_map (fun x => flat_map (fun vs => match mean_loss c vs with Some l => [l] | None => [] end) (sc_batches (ep_train x))) xs.
Proof.
  unfold doc_fit. rewrite !backs_app, !backs_on, backs_flat. cbn [app]. rewrite app_nil_r. apply flat_map_ext. intros x.
  unfold doc_epoch, doc_run. rewrite !backs_app, !backs_on, backs_scan. destruct (ep_valid x).
  - rewrite !backs_app, !backs_on, backs_scan. cbn [backs flat_map app]. now rewrite !app_nil_r.
  - cbn [backs flat_map app]. now rewrite !app_nil_r.
Qed.
End C.

Lemma skel_zero {I P} (l : list (item I P)) : count is_zero (skeleton l) = count is_zero l.
Proof. induction l as [|i l IH]; [reflexivity|]. cbn [skeleton flat_map]. fold (skeleton l). rewrite count_app, IH. unfold count. destruct i; cbn; lia. Qed.
Lemma prefix_count {I P} (p : item I P -> bool) l m : prefix l m -> (count p l <= count p m)%nat.
Proof. intros [r ->]. rewrite count_app. lia. Qed.

(* every volume has its prediction in the trace *)
Section In.
Context {I P : Type}.
Variable c : cfg.
Lemma in_vol (v : vol I P) : In (Predicted (v_pred v)) (doc_vol c v).
Proof. unfold doc_vol. do 5 (apply in_or_app; right). apply in_or_app. left. now left. Qed.
Lemma in_batch train skip (vs : list (vol I P)) v : In v vs -> In (Predicted (v_pred v)) (doc_batch c train skip vs).
Proof. intros H. unfold doc_batch. apply in_or_app. right. apply in_or_app. left. apply in_flat_map. exists v. split; [exact H|apply in_vol]. Qed.
Lemma in_scan train skip (s : scan I P) v : In v (scan_vols s) -> In (Predicted (v_pred v)) (doc_scan c train skip s).
Proof.
  intros H. unfold scan_vols in H. unfold doc_scan. apply in_app_iff in H as [H|H]; apply in_or_app; [left|right].
  - apply in_concat in H as [vs [H1 H2]]. apply in_flat_map. exists vs. split; [exact H1|now apply in_batch].
  - destruct (sc_rest s) as [|w l]; [destruct H|]. apply in_or_app. right. apply in_flat_map. exists v. split; [exact H|apply in_vol].
Qed.
Lemma in_epoch (x : epoch I P) v : In v (scan_vols (ep_train x)) -> In (Predicted (v_pred v)) (doc_epoch c x).
Proof.
  intros H. unfold doc_epoch, doc_run. apply in_or_app. right. apply in_or_app. left. apply in_or_app. right. apply in_or_app. left. now apply in_scan.
Qed.
Lemma in_fit (xs : list (epoch I P)) x v : In x xs -> In v (scan_vols (ep_train x)) -> In (Predicted (v_pred v)) (doc_fit c xs).
Proof.
  intros Hx H. unfold doc_fit. do 2 (apply in_or_app; right). apply in_or_app. left. apply in_flat_map. exists x. split; [exact Hx|now apply in_epoch].
Qed.
Lemma has_mean_one (vs : list (vol I P)) : (0 < length vs)%nat -> Forall (fun v => v_loss v <> None) vs -> has_mean vs = 1%nat.
Proof.
  destruct vs as [|v vs]; [cbn; lia|]. intros _ H. inversion H as [|? ? Hv _]; subst. unfold has_mean, losses. cbn [flat_map].
  destruct (v_loss v); [reflexivity|congruence].
Qed.
End In.
