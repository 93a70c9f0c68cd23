(* Proofs for C53. *)
From Coq Require Import Reals Lra Lia List Bool String.
From Verif Require Import Base.RUtil Base.XR Model.Fit Model.Monitor Spec.FitSpec Spec.MonitorSpec.
Import ListNotations.
Open Scope R_scope.
Open Scope list_scope.

(* ---------- dictionaries ---------- *)
Lemma part_cons sel kv d : part sel (kv :: d) = (if sel (fst kv) then snd kv else 0) + part sel d.
Proof. unfold part. cbn [filter]. destruct (sel (fst kv)); cbn [map]; [reflexivity|]. lra. Qed.
Lemma part_every d : part every d = Rsum (map snd d).
Proof. unfold part. f_equal. f_equal. induction d as [|kv d IH]; [reflexivity|]. cbn [filter every]. now rewrite IH. Qed.
Lemma add_to_part sel k x d : part sel (add_to k x d) = part sel d + (if sel k then x else 0).
Proof.
  induction d as [|[k' y] d IH]; cbn [add_to].
  - rewrite part_cons. cbn [fst snd]. change (part sel []) with 0. destruct (sel k); lra.
  - destruct (String.eqb k' k) eqn:E; rewrite !part_cons; cbn [fst snd].
    + apply String.eqb_eq in E. subst k'. destruct (sel k); lra.
    + rewrite IH. lra.
Qed.
Lemma add_all_part sel subs : forall d,
  part sel (fold_left (fun d kx => add_to (fst kx) (snd kx) d) subs d) = part sel d + part sel subs.
Proof.
  induction subs as [|kx subs IH]; intro d; cbn [fold_left].
  - change (part sel []) with 0. lra.
  - rewrite IH, add_to_part, part_cons. lra.
Qed.
Lemma add_none_part sel (subs : list (string * R)) : forall d,
  part sel (fold_left (fun d kx => add_to (fst kx) 0 d) subs d) = part sel d.
Proof. induction subs as [|kx subs IH]; intro d; cbn [fold_left]; [reflexivity|]. rewrite IH, add_to_part. destruct (sel (fst kx)); lra. Qed.
Definition nums (l : list xr) (t : R) : Prop := exists rs, l = map Fin rs /\ Rsum rs = t.
Lemma xsum_fin rs : xsum (map Fin rs) = Fin (Rsum rs).
Proof. induction rs as [|r rs IH]; [reflexivity|]. cbn [map xsum]. rewrite IH. reflexivity. Qed.
Lemma xadd_assoc3 a b c : xadd a (xadd b c) = xadd (xadd a b) c.
Proof. destruct a, b, c; cbn; auto. f_equal. lra. Qed.
Lemma xadd_comm2 a b : xadd a b = xadd b a.
Proof. destruct a, b; cbn; auto. f_equal. lra. Qed.
Lemma xadd_0 a : xadd (Fin 0) a = a.
Proof. destruct a; cbn; auto. f_equal. lra. Qed.
Lemma xsum_app l m : xsum (l ++ m) = xadd (xsum l) (xsum m).
Proof. induction l as [|x l IH]; cbn [app xsum]; [now rewrite xadd_0|]. now rewrite IH, xadd_assoc3. Qed.
Lemma logged_cons sel kl d : logged sel (kl :: d) = (if sel (fst kl) then snd kl else []) ++ logged sel d.
Proof. unfold logged. cbn [filter]. now destruct (sel (fst kl)). Qed.
Lemma append_to_sum sel k x d : xsum (logged sel (append_to k x d)) = xadd (xsum (logged sel d)) (if sel k then x else Fin 0).
Proof.
  induction d as [|[k' l] d IH]; cbn [append_to].
  - rewrite logged_cons. cbn [fst snd]. change (logged sel []) with (@nil xr). rewrite app_nil_r. destruct (sel k); cbn [xsum]; [apply xadd_comm2|now rewrite xadd_0].
  - destruct (String.eqb k' k) eqn:E; rewrite !logged_cons; cbn [fst snd].
    + apply String.eqb_eq in E. subst k'. rewrite !xsum_app. destruct (sel k).
      * rewrite xsum_app. cbn [xsum]. rewrite (xadd_comm2 x (Fin 0)), xadd_0. rewrite <- !xadd_assoc3. f_equal. apply xadd_comm2.
      * cbn [xsum]. rewrite !xadd_0. now rewrite xadd_comm2, xadd_0.
    + now rewrite !xsum_app, IH, xadd_assoc3.
Qed.
Lemma append_all_sum sel fracs : forall d,
  xsum (logged sel (fold_left (fun d kq => append_to (fst kq) (snd kq) d) fracs d))
  = xadd (xsum (logged sel d)) (xsum (map snd (filter (fun kq => sel (fst kq)) fracs))).
Proof.
  induction fracs as [|kq fracs IH]; intro d; cbn [fold_left filter].
  - cbn. now rewrite xadd_comm2, xadd_0.
  - rewrite IH, append_to_sum, <- xadd_assoc3. f_equal. destruct (sel (fst kq)); [reflexivity|]. now rewrite xadd_0.
Qed.

(* ---------- the trace ---------- *)
Section Run.
Context {I P : Type}.
Variable c : cfg.
Variable k : nat.
Hypothesis Hk : In k (c_cbs c).
Hypothesis Hd : NoDup (c_cbs c).
Notation items := (list (item I P)).

Lemma run_app (l m : items) s : log_run k (l ++ m) s = bind (log_run k l s) (log_run k m).
Proof.
  unfold log_run. revert s. induction l as [|i l IH]; intro s; [reflexivity|]. cbn [app foldM].
  destruct (log_step k i s); cbn [bind]; [apply IH|reflexivity].
Qed.
Lemma run_cons (i : item I P) l s : log_run k (i :: l) s = bind (log_step k i s) (log_run k l).
Proof. reflexivity. Qed.
Definition with_lg (s : lrun) (g : lg) : lrun := Lrun (r_see s) (r_ds s) g.
Lemma run_on e s : log_run k (on c e : items) s = bind (log_cb e (r_see s) (r_lg s)) (fun g => Ok (with_lg s g)).
Proof.
  unfold on. revert Hk Hd. induction (c_cbs c) as [|k' l IH]; [intros []|]. intros H N. inversion N as [|? ? N1 N2]; subst.
  cbn [map]. rewrite run_cons. cbn [log_step]. destruct (Nat.eqb k' k) eqn:E.
  - apply Nat.eqb_eq in E. subst k'. destruct (log_cb e (r_see s) (r_lg s)) as [g|x]; cbn [bind]; [|reflexivity].
    change (Lrun (r_see s) (r_ds s) g) with (with_lg s g). generalize (with_lg s g). clear -N1. induction l as [|k' l IH]; intro s'; [reflexivity|].
    cbn [map]. rewrite run_cons. cbn [log_step]. destruct (Nat.eqb k' k) eqn:E.
    + apply Nat.eqb_eq in E. subst. exfalso. apply N1. left; auto.
    + cbn [bind]. apply IH. intro X. apply N1. right; auto.
  - cbn [bind]. apply Nat.eqb_neq in E. destruct H as [H|H]; [congruence|]. apply IH; auto.
Qed.
Lemma run_idle e s : log_cb e (r_see s) (r_lg s) = Ok (r_lg s) -> log_run k (on c e : items) s = Ok s.
Proof. intro H. rewrite run_on, H. cbn [bind]. unfold with_lg. now destruct s. Qed.
Lemma run_mu s : log_run k (doc_mu c : items) s = Ok s.
Proof.
  unfold doc_mu. rewrite run_app, run_cons. cbn [log_step bind log_run foldM].
  rewrite run_app, run_idle by reflexivity. cbn [bind]. rewrite run_app. cbn [log_run foldM log_step bind]. change (foldM (fun s i => log_step k i s)) with (@log_run I P k).
  rewrite run_app, run_idle by reflexivity. cbn [bind]. rewrite run_app. cbn [log_run foldM log_step bind]. now rewrite run_idle.
Qed.
Lemma run_mus n s : log_run k (concat (repeat (doc_mu c : items) n)) s = Ok s.
Proof. induction n as [|n IH]; [reflexivity|]. cbn [repeat concat]. rewrite run_app, run_mu. cbn [bind]. exact IH. Qed.

(* one volume *)
Definition is_some {A} (o : option A) : bool := match o with Some _ => true | None => false end.
Lemma run_vol (v : vol I P) s ds :
  r_ds s = (match v_loss v with Some _ => firstn 1 (r_ds s) | None => [] end) ++ ds ->
  log_run k (doc_vol c v) s =
  bind (log_cb VolumeEnd (Lsee (e_mode (r_see s)) (is_some (v_pred v)) (e_mean (r_see s))
                               (match v_loss v, r_ds s with Some _, d :: _ => Some d | _, _ => e_subs (r_see s) end)) (r_lg s))
       (fun g => Ok (Lrun (Lsee (e_mode (r_see s)) (is_some (v_pred v)) (e_mean (r_see s))
                               (match v_loss v, r_ds s with Some _, d :: _ => Some d | _, _ => e_subs (r_see s) end)) ds g)).
Proof.
  intro Hds. unfold doc_vol. rewrite run_app, run_cons. cbn [log_step bind log_run foldM]. change (foldM (fun s i => log_step k i s)) with (@log_run I P k).
  rewrite run_app, run_idle by reflexivity. cbn [bind]. rewrite run_app, run_cons. cbn [log_step bind]. unfold log_run at 1. cbn [foldM bind].
  rewrite run_app, run_mus. cbn [bind]. rewrite run_app, run_idle by reflexivity. cbn [bind].
  rewrite run_app, run_cons. cbn [log_step bind]. unfold log_run at 1. cbn [foldM bind r_see r_ds r_lg e_mode e_pred e_mean e_subs].
  rewrite run_app, run_idle by reflexivity. cbn [bind]. rewrite run_app.
  destruct (v_loss v) as [l|].
  - destruct (r_ds s) as [|d ds'] eqn:E.
    + cbn in Hds. subst ds. rewrite run_cons. cbn [log_step r_ds bind]. rewrite ?E. unfold log_run at 1. cbn [foldM bind]. rewrite run_on. reflexivity.
    + cbn in Hds. injection Hds as <-. rewrite run_cons. cbn [log_step r_ds bind]. rewrite ?E. unfold log_run at 1. cbn [foldM bind]. rewrite run_on. reflexivity.
  - cbn in Hds. subst ds. unfold log_run at 1. cbn [foldM bind]. rewrite run_on. reflexivity.
Qed.

(* the state stays the same up to what is read, the coming sub-losses, and a function of the logger *)
Definition keeps_history (g g' : lg) : Prop :=
  g_trn g' = g_trn g /\ g_val g' = g_val g /\ g_sub g' = g_sub g /\ g_best g' = g_best g /\ g_tmp g' = g_tmp g /\ g_batches g' = g_batches g.
Lemma keeps_refl g : keeps_history g g.
Proof. now repeat split. Qed.

Lemma run_vols_valid (vs : list (vol I P)) : Forall (loss_iff true) vs -> forall s ds1 ds2,
  e_mode (r_see s) = Some Valid -> e_subs (r_see s) <> None -> r_ds s = ds1 ++ ds2 -> all_add_up ds1 (losses vs) ->
  exists s', log_run k (flat_map (doc_vol c) vs) s = Ok s' /\ e_mode (r_see s') = Some Valid /\ e_subs (r_see s') <> None /\ r_ds s' = ds2
    /\ keeps_history (r_lg s) (r_lg s') /\ g_volumes (r_lg s') = (g_volumes (r_lg s) + length (losses vs))%nat
    /\ (forall sel, part sel (g_tmp_sub (r_lg s')) = part sel (g_tmp_sub (r_lg s)) + Rsum (map (part sel) ds1)).
Proof.
  induction vs as [|v vs IH]; intros F s ds1 ds2 Em Es Ed A.
  - cbn in A. inversion A; subst. exists s. cbn. rewrite Nat.add_0_r. repeat split; auto. intro. now rewrite Rplus_0_r.
  - inversion F as [|? ? F1 F2]; subst. cbn [flat_map]. rewrite run_app. change (losses (v :: vs)) with ((match v_loss v with Some l => [l] | None => [] end) ++ losses vs) in *.
    unfold loss_iff in F1.
    destruct (v_loss v) as [l|] eqn:El.
    + inversion A as [|d ? ds1' ? A1 A2]; subst. cbn [app] in Ed.
      rewrite (run_vol v s (ds1' ++ ds2)) by (rewrite El, Ed; reflexivity). rewrite El, Ed, Em.
      assert (is_some (v_pred v) = true) as ->.
      { destruct (v_pred v); [reflexivity|]. destruct (proj1 F1 ltac:(discriminate)) as [_ X]. congruence. }
      cbn [log_cb is_valid e_mode e_subs e_pred bind].
      match goal with |- context [log_run k _ ?z] => set (s2 := z) end.
      assert (e_subs (r_see s2) <> None) as S2 by discriminate.
      destruct (IH F2 s2 ds1' ds2 eq_refl S2 eq_refl A2) as (s' & E' & M' & S' & D' & K' & V' & T').
      exists s'. split; [exact E'|]. split; [exact M'|]. split; [exact S'|]. split; [exact D'|].
      cbn [s2 r_lg g_volumes g_tmp_sub] in *. split; [|split].
      * destruct K' as (K1 & K2 & K3 & K4 & K5 & K6). now repeat split.
      * rewrite V'. cbn [app length]. lia.
      * intro sel. rewrite T', add_all_part. cbn [map]. change (Rsum (part sel d :: map (part sel) ds1')) with (part sel d + Rsum (map (part sel) ds1')). lra.
    + rewrite (run_vol v s (ds1 ++ ds2)) by (rewrite El, Ed; reflexivity). rewrite El, Em.
      assert (is_some (v_pred v) = false) as ->.
      { destruct (v_pred v) eqn:Ep; [|reflexivity]. exfalso. apply (proj2 F1); [split; [reflexivity|discriminate]|reflexivity]. }
      destruct (e_subs (r_see s)) as [subs|] eqn:Eb; [|congruence].
      cbn [log_cb is_valid e_mode e_subs e_pred bind].
      match goal with |- context [log_run k _ ?z] => set (s2 := z) end.
      assert (e_subs (r_see s2) <> None) as S2 by discriminate.
      destruct (IH F2 s2 ds1 ds2 eq_refl S2 eq_refl A)
        as (s' & E' & M' & S' & D' & K' & V' & T').
      exists s'. split; [exact E'|]. split; [exact M'|]. split; [exact S'|]. split; [exact D'|].
      cbn [s2 r_lg g_volumes g_tmp_sub app] in *. split; [|split].
      * destruct K' as (K1 & K2 & K3 & K4 & K5 & K6). now repeat split.
      * exact V'.
      * intro sel. now rewrite T', add_none_part.
Qed.
Lemma all_split ds a b : all_add_up ds (a ++ b) -> exists d1 d2, ds = d1 ++ d2 /\ all_add_up d1 a /\ all_add_up d2 b.
Proof. intro H. apply Forall2_app_inv_r in H as (d1 & d2 & H1 & H2 & ->). exists d1, d2. auto. Qed.

Lemma run_batches_valid skip : forall bs : list (list (vol I P)), Forall (Forall (loss_iff true)) bs -> forall s ds1 ds2,
  e_mode (r_see s) = Some Valid -> e_subs (r_see s) <> None -> r_ds s = ds1 ++ ds2 -> all_add_up ds1 (losses (concat bs)) ->
  exists s', log_run k (flat_map (doc_batch c false skip) bs) s = Ok s' /\ e_mode (r_see s') = Some Valid /\ e_subs (r_see s') <> None /\ r_ds s' = ds2
    /\ g_trn (r_lg s') = g_trn (r_lg s) /\ g_val (r_lg s') = g_val (r_lg s) /\ g_sub (r_lg s') = g_sub (r_lg s) /\ g_best (r_lg s') = g_best (r_lg s)
    /\ g_tmp (r_lg s') = fold_left xadd (map (fun vs => or_inf (mean_loss c vs)) bs) (g_tmp (r_lg s))
    /\ g_batches (r_lg s') = (g_batches (r_lg s) + length bs)%nat
    /\ g_volumes (r_lg s') = (g_volumes (r_lg s) + length (losses (concat bs)))%nat
    /\ (forall sel, part sel (g_tmp_sub (r_lg s')) = part sel (g_tmp_sub (r_lg s)) + Rsum (map (part sel) ds1)).
Proof.
  assert (forall a b : list (vol I P), losses (a ++ b) = losses a ++ losses b) as LA by (intros; unfold losses; apply flat_map_app).
  induction bs as [|vs bs IH]; intros F s ds1 ds2 Em Es Ed A.
  - cbn in A. inversion A; subst. exists s. cbn. rewrite !Nat.add_0_r. repeat split; auto. intro. now rewrite Rplus_0_r.
  - inversion F as [|? ? F1 F2]; subst. cbn [flat_map concat]. rewrite run_app. unfold doc_batch at 1. cbn [concat] in A. rewrite LA in A.
    apply all_split in A as (d1 & d2 & -> & A1 & A2). rewrite <- app_assoc in Ed.
    rewrite run_app, run_idle by reflexivity. cbn [bind]. rewrite run_app.
    destruct (run_vols_valid vs F1 s d1 (d2 ++ ds2) Em Es Ed A1) as (s1 & E1 & M1 & S1 & D1 & (K1 & K2 & K3 & K4 & K5 & K6) & V1 & T1). rewrite E1. cbn [bind].
    unfold doc_end. rewrite run_app, run_cons. cbn [log_step bind]. unfold log_run at 1. cbn [foldM bind]. rewrite app_nil_r, run_on.
    cbn [log_cb r_see e_mode r_lg e_mean]. rewrite M1. cbn [is_valid bind].
    match goal with |- context [log_run k _ ?z] => set (s2 := z) end.
    destruct (IH F2 s2 d2 ds2 eq_refl S1 D1 A2) as (s' & E' & M' & S' & D' & H1 & H2 & H3 & H4 & H5 & H6 & H7 & H8).
    cbn [s2 with_lg r_lg g_trn g_val g_sub g_best g_tmp g_batches g_volumes g_tmp_sub] in *.
    exists s'. split; [exact E'|]. repeat split; auto; try congruence.
    + rewrite H5, K5. reflexivity.
    + rewrite H6, K6. cbn [length]. lia.
    + rewrite H7, V1, LA, app_length. lia.
    + intro sel. rewrite H8, T1, map_app, Rsum_app. lra.
Qed.

Lemma losses_app (a b : list (vol I P)) : losses (a ++ b) = losses a ++ losses b.
Proof. unfold losses. apply flat_map_app. Qed.
Lemma fold_xadd l : forall a, fold_left xadd l a = xadd a (xsum l).
Proof. induction l as [|x l IH]; intro a; cbn [fold_left xsum]; [now rewrite xadd_comm2, xadd_0|]. now rewrite IH, xadd_assoc3. Qed.
Lemma concat_forall {A} (Q : A -> Prop) l : Forall Q (concat l) -> Forall (Forall Q) l.
Proof. induction l as [|a l IH]; cbn; intro H; constructor; apply Forall_app in H as [H1 H2]; auto. Qed.

(* a validation epoch, up to the end of it *)
Lemma run_valid skip (v : scan I P) s ds1 ds2 :
  Forall (loss_iff true) (scan_vols v) -> e_mode (r_see s) = Some Valid -> e_subs (r_see s) <> None ->
  r_ds s = ds1 ++ ds2 -> all_add_up ds1 (scan_losses v) ->
  exists s1, e_mode (r_see s1) = Some Valid /\ e_subs (r_see s1) <> None /\ r_ds s1 = ds2
    /\ log_run k (doc_run c false skip v) s = bind (log_epoch_end (r_lg s1)) (fun g => Ok (with_lg s1 g))
    /\ g_trn (r_lg s1) = g_trn (r_lg s) /\ g_val (r_lg s1) = g_val (r_lg s) /\ g_sub (r_lg s1) = g_sub (r_lg s) /\ g_best (r_lg s1) = g_best (r_lg s)
    /\ g_tmp (r_lg s1) = xsum (batch_losses c v) /\ g_batches (r_lg s1) = length (sc_batches v)
    /\ g_volumes (r_lg s1) = length (scan_losses v) /\ (forall sel, part sel (g_tmp_sub (r_lg s1)) = Rsum (map (part sel) ds1)).
Proof.
  intros F Em Es Ed A. unfold scan_vols in F. apply Forall_app in F as [Fb Fr]. apply concat_forall in Fb.
  unfold scan_losses, scan_vols in A |- *. rewrite losses_app in A |- *.
  apply all_split in A as (d1 & d2 & -> & A1 & A2). rewrite <- app_assoc in Ed.
  unfold doc_run. rewrite run_app, run_on. cbn [log_cb bind]. unfold with_lg at 1.
  match goal with |- context [log_run k _ ?z] => set (s0 := z) end. rewrite run_app.
  unfold doc_scan. rewrite run_app.
  destruct (run_batches_valid skip (sc_batches v) Fb s0 d1 (d2 ++ ds2) Em Es Ed A1)
    as (s1 & E1 & M1 & S1 & D1 & H1 & H2 & H3 & H4 & H5 & H6 & H7 & H8). rewrite E1. cbn [bind].
  assert (exists s2, log_run k (match sc_rest v with [] => [] | _ => on c VolumeBatchBegin ++ flat_map (doc_vol c) (sc_rest v) end) s1 = Ok s2
            /\ e_mode (r_see s2) = Some Valid /\ e_subs (r_see s2) <> None /\ r_ds s2 = ds2 /\ keeps_history (r_lg s1) (r_lg s2)
            /\ g_volumes (r_lg s2) = (g_volumes (r_lg s1) + length (losses (sc_rest v)))%nat
            /\ (forall sel, part sel (g_tmp_sub (r_lg s2)) = part sel (g_tmp_sub (r_lg s1)) + Rsum (map (part sel) d2)))
    as (s2 & E2 & M2 & S2 & D2 & (K1 & K2 & K3 & K4 & K5 & K6) & V2 & T2).
  { destruct (run_vols_valid (sc_rest v) Fr s1 d2 ds2 M1 S1 D1 A2) as (s2 & E2 & X). exists s2. split; [|exact X].
    destruct (sc_rest v) as [|r rest]; [exact E2|]. rewrite run_app, run_idle by reflexivity. exact E2. }
  rewrite E2. cbn [bind]. exists s2. rewrite run_on. cbn [log_cb]. rewrite M2. cbn [is_valid].
  cbn [s0 r_lg g_trn g_val g_sub g_best g_tmp g_batches g_volumes g_tmp_sub map] in *.
  split; [reflexivity|]. split; [exact S2|]. split; [exact D2|]. split; [reflexivity|].
  repeat split; try congruence.
  - rewrite K5, H5, fold_xadd, xadd_0. reflexivity.
  - rewrite K6, H6. reflexivity.
  - rewrite V2, H7, app_length. reflexivity.
  - intro sel. rewrite T2, H8, map_app, Rsum_app. change (part sel []) with 0. lra.
Qed.

(* a training epoch *)
Lemma run_vols_train (vs : list (vol I P)) : forall s ds1 ds2, e_mode (r_see s) = Some Train -> e_subs (r_see s) <> None ->
  r_ds s = ds1 ++ ds2 -> all_add_up ds1 (losses vs) ->
  exists s', log_run k (flat_map (doc_vol c) vs) s = Ok s' /\ e_mode (r_see s') = Some Train /\ e_subs (r_see s') <> None /\ r_ds s' = ds2 /\ r_lg s' = r_lg s.
Proof.
  induction vs as [|v vs IH]; intros s ds1 ds2 Em Es Ed A.
  - cbn in A. inversion A; subst. exists s. auto.
  - cbn [flat_map]. rewrite run_app. change (losses (v :: vs)) with ((match v_loss v with Some l => [l] | None => [] end) ++ losses vs) in *.
    destruct (v_loss v) as [l|] eqn:El.
    + inversion A as [|d ? ds1' ? A1 A2]; subst. cbn [app] in Ed.
      rewrite (run_vol v s (ds1' ++ ds2)) by (rewrite El, Ed; reflexivity). rewrite El, Ed, Em. cbn [log_cb is_valid e_mode bind].
      match goal with |- context [log_run k _ ?z] => set (s2 := z) end.
      assert (e_subs (r_see s2) <> None) as S2 by discriminate.
      destruct (IH s2 ds1' ds2 eq_refl S2 eq_refl A2) as (s' & X). exists s'. exact X.
    + rewrite (run_vol v s (ds1 ++ ds2)) by (rewrite El, Ed; reflexivity). rewrite El, Em. cbn [log_cb is_valid e_mode bind].
      match goal with |- context [log_run k _ ?z] => set (s2 := z) end.
      destruct (IH s2 ds1 ds2 eq_refl Es eq_refl A) as (s' & X). exists s'. exact X.
Qed.
Definition only_trn (new : list xr) (g g' : lg) : Prop :=
  g_trn g' = g_trn g ++ new /\ g_val g' = g_val g /\ g_sub g' = g_sub g /\ g_best g' = g_best g.
Lemma run_batches_train skip : forall (bs : list (list (vol I P))) s ds1 ds2, e_mode (r_see s) = Some Train -> e_subs (r_see s) <> None ->
  r_ds s = ds1 ++ ds2 -> all_add_up ds1 (losses (concat bs)) ->
  exists s', log_run k (flat_map (doc_batch c true skip) bs) s = Ok s' /\ e_mode (r_see s') = Some Train /\ e_subs (r_see s') <> None /\ r_ds s' = ds2
    /\ only_trn (map (fun vs => or_inf (mean_loss c vs)) bs) (r_lg s) (r_lg s').
Proof.
  induction bs as [|vs bs IH]; intros s ds1 ds2 Em Es Ed A.
  - cbn in A. inversion A; subst. exists s. unfold only_trn. cbn. rewrite app_nil_r. repeat split; auto.
  - cbn [flat_map concat] in *. rewrite run_app. rewrite losses_app in A. apply all_split in A as (d1 & d2 & -> & A1 & A2). rewrite <- app_assoc in Ed.
    unfold doc_batch at 1. rewrite run_app, run_idle by reflexivity. cbn [bind]. rewrite run_app.
    destruct (run_vols_train vs s d1 (d2 ++ ds2) Em Es Ed A1) as (s1 & E1 & M1 & S1 & D1 & K1). rewrite E1. cbn [bind].
    unfold doc_end. rewrite run_app, run_cons. cbn [log_step bind]. unfold log_run at 1. cbn [foldM bind].
    rewrite run_app, run_idle by (cbn [log_cb r_see e_mode]; rewrite M1; reflexivity). cbn [bind].
    unfold doc_update. rewrite run_app, run_cons. cbn [log_step bind]. unfold log_run at 1. cbn [foldM bind].
    rewrite run_app, run_idle by reflexivity. cbn [bind]. rewrite run_app.
    match goal with |- context [log_run k (match mean_loss c vs with _ => _ end) ?z] => set (s2 := z) end.
    assert (log_run k (match mean_loss c vs with Some l => [Backward l] | None => [] end : items) s2 = Ok s2) as -> by (destruct (mean_loss c vs); reflexivity).
    cbn [bind]. rewrite run_app, run_on. cbn [log_cb s2 r_see e_mode r_lg e_mean]. rewrite M1. cbn [is_train bind].
    match goal with |- context [with_lg ?a ?b] => set (s3 := with_lg a b) end. rewrite run_app.
    assert (log_run k ((if skip then [] else match mean_loss c vs with Some _ => [Step] | None => [] end) : items) s3 = Ok s3) as -> by (destruct skip, (mean_loss c vs); reflexivity).
    cbn [bind]. rewrite run_app, run_idle by reflexivity. cbn [bind]. rewrite run_cons. cbn [log_step bind]. unfold log_run at 1. cbn [foldM bind].
    destruct (IH s3 d2 ds2 M1 S1 D1 A2) as (s' & E' & M' & S' & D' & (H1 & H2 & H3 & H4)).
    exists s'. split; [exact E'|]. split; [exact M'|]. split; [exact S'|]. split; [exact D'|].
    cbn [s3 with_lg r_lg g_trn g_val g_sub g_best] in *. rewrite K1 in *. unfold only_trn. rewrite H1, <- app_assoc. now repeat split.
Qed.
Lemma run_train skip (v : scan I P) s ds1 ds2 :
  e_mode (r_see s) = Some Train -> e_subs (r_see s) <> None -> r_ds s = ds1 ++ ds2 -> all_add_up ds1 (scan_losses v) ->
  exists s', log_run k (doc_run c true skip v) s = Ok s' /\ e_mode (r_see s') = Some Train /\ e_subs (r_see s') <> None /\ r_ds s' = ds2
    /\ only_trn (batch_losses c v) (r_lg s) (r_lg s').
Proof.
  intros Em Es Ed A. unfold scan_losses, scan_vols in A. rewrite losses_app in A. apply all_split in A as (d1 & d2 & -> & A1 & A2). rewrite <- app_assoc in Ed.
  unfold doc_run. rewrite run_app, run_on. cbn [log_cb bind]. unfold with_lg at 1.
  match goal with |- context [log_run k _ ?z] => set (s0 := z) end. rewrite run_app. unfold doc_scan. rewrite run_app.
  destruct (run_batches_train skip (sc_batches v) s0 d1 (d2 ++ ds2) Em Es Ed A1) as (s1 & E1 & M1 & S1 & D1 & O1). rewrite E1. cbn [bind].
  assert (exists s2, log_run k (match sc_rest v with [] => [] | _ => on c VolumeBatchBegin ++ flat_map (doc_vol c) (sc_rest v) end) s1 = Ok s2
            /\ e_mode (r_see s2) = Some Train /\ e_subs (r_see s2) <> None /\ r_ds s2 = ds2 /\ r_lg s2 = r_lg s1) as (s2 & E2 & M2 & S2 & D2 & L2).
  { destruct (run_vols_train (sc_rest v) s1 d2 ds2 M1 S1 D1 A2) as (s2 & E2 & X). exists s2. split; [|exact X].
    destruct (sc_rest v) as [|r rest]; [exact E2|]. rewrite run_app, run_idle by reflexivity. exact E2. }
  rewrite E2. cbn [bind]. exists s2. rewrite run_idle by (cbn [log_cb]; rewrite M2; reflexivity).
  split; [reflexivity|]. split; [exact M2|]. split; [exact S2|]. split; [exact D2|]. rewrite L2. exact O1.
Qed.
End Run.

(* ---------- the end of an epoch ---------- *)
Lemma fracs_spec sel val n tmp : pydiv (Fin 0) (xmul val (Fin n)) <> Err ZeroDivisionError ->
  exists fr, mapM (fun kv : string * R => q <- pydiv (Fin (snd kv)) (xmul val (Fin n)) ;; Ok (fst kv, q)) tmp = Ok fr
    /\ map snd (filter (fun kq => sel (fst kq)) fr) = map (fun kv => xdiv (Fin (snd kv)) (xmul val (Fin n))) (filter (fun kv => sel (fst kv)) tmp).
Proof.
  intro H. unfold pydiv in *. destruct (xeq (xmul val (Fin n)) (Fin 0)); [congruence|]. cbn [bind].
  induction tmp as [|kv tmp (fr & E & M)]; [exists []; auto|]. cbn [mapM bind]. rewrite E. cbn [bind]. eexists. split; [reflexivity|]. cbn [filter fst].
  destruct (sel (fst kv)); cbn [map snd]; now rewrite M.
Qed.
Lemma sum_div l d : d <> 0 -> xsum (map (fun kv : string * R => xdiv (Fin (snd kv)) (Fin d)) l) = Fin (Rsum (map snd l) / d).
Proof.
  intro D. induction l as [|kv l IH].
  - cbn. f_equal. field. exact D.
  - cbn [map xsum]. rewrite IH. unfold xdiv. destruct (Req_EM_T d 0); [contradiction|]. cbn [xadd]. f_equal.
    change (Rsum (snd kv :: map snd l)) with (snd kv + Rsum (map snd l)). field. exact D.
Qed.
Lemma epoch_end_num g t : g_tmp g = Fin t -> (0 < g_batches g)%nat -> t <> 0 -> (0 < g_volumes g)%nat ->
  exists g', log_epoch_end g = Ok g'
    /\ g_trn g' = g_trn g /\ g_val g' = g_val g ++ [Fin (t / INR (g_batches g))]
    /\ (forall sel, xsum (logged sel (g_sub g')) = xadd (xsum (logged sel (g_sub g))) (Fin (part sel (g_tmp_sub g) / (t / INR (g_batches g) * INR (g_volumes g)))))
    /\ g_best g' = if xle (Fin (t / INR (g_batches g))) (g_best g) then Fin (t / INR (g_batches g)) else g_best g.
Proof.
  intros Et Hb Ht Hv. unfold log_epoch_end. rewrite Et.
  assert (INR (g_batches g) <> 0) as NB by (apply not_0_INR; lia). assert (INR (g_volumes g) <> 0) as NV by (apply not_0_INR; lia).
  assert (pydiv (Fin t) (Fin (INR (g_batches g))) = Ok (Fin (t / INR (g_batches g)))) as ->.
  { unfold pydiv, xeq. destruct (Reqb_spec (INR (g_batches g)) 0); [contradiction|]. unfold xdiv. destruct (Req_EM_T (INR (g_batches g)) 0); [contradiction|reflexivity]. }
  cbn [bind].
  assert (t / INR (g_batches g) * INR (g_volumes g) <> 0) as ND.
  { apply Rmult_integral_contrapositive. split; [|exact NV]. unfold Rdiv. apply Rmult_integral_contrapositive. split; [exact Ht|]. apply Rinv_neq_0_compat, NB. }
  assert (pydiv (Fin 0) (xmul (Fin (t / INR (g_batches g))) (Fin (INR (g_volumes g)))) <> Err ZeroDivisionError) as NE.
  { unfold pydiv. cbn [xmul xeq]. destruct (Reqb_spec (t / INR (g_batches g) * INR (g_volumes g)) 0); [contradiction|discriminate]. }
  destruct (fracs_spec every (Fin (t / INR (g_batches g))) (INR (g_volumes g)) (g_tmp_sub g) NE) as (fr & E & _).
  rewrite E. cbn [bind]. eexists. split; [reflexivity|]. cbn [g_trn g_val g_sub g_best]. split; [reflexivity|]. split; [reflexivity|]. split; [|reflexivity].
  intro sel. destruct (fracs_spec sel (Fin (t / INR (g_batches g))) (INR (g_volumes g)) (g_tmp_sub g) NE) as (fr' & E' & M).
  rewrite E in E'. injection E' as <-. rewrite append_all_sum, M. f_equal. cbn [xmul]. unfold part. apply sum_div. exact ND.
Qed.
Lemma epoch_end_val g g' : log_epoch_end g = Ok g' -> (0 < g_batches g)%nat
  /\ g_trn g' = g_trn g /\ g_val g' = g_val g ++ [xdiv (g_tmp g) (Fin (INR (g_batches g)))]
  /\ g_best g' = if xle (xdiv (g_tmp g) (Fin (INR (g_batches g)))) (g_best g) then xdiv (g_tmp g) (Fin (INR (g_batches g))) else g_best g.
Proof.
  unfold log_epoch_end. intro H. unfold pydiv at 1 in H. unfold xeq in H.
  destruct (Reqb_spec (INR (g_batches g)) 0) as [Z|Z]; [discriminate|]. cbn [bind] in H.
  destruct (mapM _ (g_tmp_sub g)) as [fr|]; [|discriminate]. injection H as <-. cbn [g_trn g_val g_best].
  split; [|auto]. destruct (g_batches g); [cbn in Z; lra|lia].
Qed.
Lemma epoch_end_few g : g_batches g = 0%nat -> log_epoch_end g = Err ZeroDivisionError.
Proof. intro E. unfold log_epoch_end, pydiv at 1, xeq. rewrite E. cbn [INR]. destruct (Reqb_spec 0 0); [reflexivity|lra]. Qed.
Lemma epoch_end_zero g : g_tmp g = Fin 0 -> g_tmp_sub g <> [] -> log_epoch_end g = Err ZeroDivisionError.
Proof.
  intros E N. unfold log_epoch_end. rewrite E. unfold pydiv at 1, xeq.
  destruct (Reqb_spec (INR (g_batches g)) 0) as [Z|Z]; [reflexivity|]. cbn [bind]. unfold xdiv. destruct (Req_EM_T (INR (g_batches g)) 0); [contradiction|].
  destruct (g_tmp_sub g) as [|kv l]; [contradiction|]. cbn [mapM bind]. unfold pydiv at 1, xeq. cbn [xmul].
  destruct (Reqb_spec (0 / INR (g_batches g) * INR (g_volumes g)) 0) as [_|X]; [reflexivity|]. exfalso. apply X. field. exact Z.
Qed.
Lemma smallest_step b l v : smallest b l -> smallest (if xle v b then v else b) (l ++ [v]).
Proof.
  assert (forall a b c, xle a b = true -> xle b c = true -> xle a c = true) as TR.
  { intros [x| | |] [y| | |] [z| | |]; cbn; try discriminate; auto. rewrite !Rleb_true. lra. }
  intros (N & S1 & S2). destruct (xle v b) eqn:E; split; [|split| |split].
  - intros ->. discriminate.
  - intros x Hx Nx. apply in_app_or in Hx as [Hx|[<-|[]]]; [apply (TR v b x); auto|]. destruct v; cbn in *; try discriminate; auto; [apply Rleb_true; lra].
  - right. apply in_or_app. right; left; auto.
  - exact N.
  - intros x Hx Nx. apply in_app_or in Hx as [Hx|[<-|[]]]; [auto|]. destruct b, v; cbn in *; try discriminate; try congruence; auto.
    apply Rleb_false in E. apply Rleb_true. lra.
  - destruct S2; [left; auto|right; apply in_or_app; auto].
Qed.

(* ---------- all epochs ---------- *)
Section Epochs.
Context {I P : Type}.
Variable c : cfg.
Definition item_losses (l : list (item I P)) : list R := flat_map (fun i => match i with Loss l => [l] | _ => [] end) l.
Lemma il_app l m : item_losses (l ++ m) = item_losses l ++ item_losses m.
Proof. apply flat_map_app. Qed.
Lemma il_on e : item_losses (on c e) = [].
Proof. unfold on. induction (c_cbs c) as [|x l IH]; [reflexivity|exact IH]. Qed.
Lemma il_mus n : item_losses (concat (repeat (doc_mu c) n)) = [].
Proof. induction n as [|n IH]; [reflexivity|]. cbn [repeat concat]. unfold doc_mu at 1. rewrite !il_app, !il_on, IH. reflexivity. Qed.
Lemma il_vol v : item_losses (doc_vol c v) = match v_loss v with Some l => [l] | None => [] end.
Proof. unfold doc_vol. rewrite !il_app, !il_on, il_mus. cbn [item_losses flat_map app]. destruct (v_loss v); reflexivity. Qed.
Lemma il_vols vs : item_losses (flat_map (doc_vol c) vs) = losses vs.
Proof. induction vs as [|v vs IH]; [reflexivity|]. cbn [flat_map]. rewrite il_app, il_vol, IH. reflexivity. Qed.
Lemma il_run tr sk s : item_losses (doc_run c tr sk s) = scan_losses s.
Proof.
  unfold doc_run, doc_scan, scan_losses, scan_vols. rewrite !il_app, !il_on, app_nil_r. cbn [app]. unfold losses at 1. rewrite flat_map_app. f_equal.
  - induction (sc_batches s) as [|vs bs IH]; [reflexivity|]. cbn [flat_map concat]. rewrite il_app, IH, flat_map_app. f_equal.
    unfold doc_batch, doc_end. rewrite !il_app, !il_on, il_vols. cbn [app].
    assert (item_losses (if tr then doc_update c sk (mean_loss c vs) else []) = []) as ->; [|cbn; now rewrite app_nil_r].
    destruct tr; [|reflexivity]. unfold doc_update. rewrite !il_app, !il_on. destruct (mean_loss c vs), sk; reflexivity.
  - destruct (sc_rest s) as [|r l]; [reflexivity|]. rewrite il_app, il_on, il_vols. reflexivity.
Qed.
Lemma doc_fit_losses xs : item_losses (doc_fit c xs) = flat_map epoch_losses xs.
Proof.
  unfold doc_fit. rewrite !il_app, !il_on, app_nil_r. cbn [app]. induction xs as [|x xs IH]; [reflexivity|]. cbn [flat_map]. rewrite il_app, IH. f_equal.
  unfold doc_epoch, epoch_losses. rewrite !il_app, il_run. change (item_losses [SetTrain]) with (@nil R). cbn [app]. f_equal.
  destruct (ep_valid x); [|reflexivity]. change (item_losses ([SetEval] ++ doc_run c false (ep_skip x) s) = scan_losses s). now rewrite il_app, il_run.
Qed.

Variable k : nat.
Hypothesis Hk : In k (c_cbs c).
Hypothesis Hd : NoDup (c_cbs c).
Definition val_loss (x : epoch I P) : list xr :=
  match ep_valid x with Some v => [xdiv (xsum (batch_losses c v)) (Fin (INR (length (sc_batches v))))] | None => [] end.
Lemma run_epochs xs : Forall (fun x => Forall (loss_iff true) (epoch_vols x)) xs -> forall s ds1 ds2 s',
  e_subs (r_see s) <> None -> r_ds s = ds1 ++ ds2 -> all_add_up ds1 (flat_map epoch_losses xs) ->
  smallest (g_best (r_lg s)) (g_val (r_lg s)) ->
  log_run k (flat_map (doc_epoch c) xs) s = Ok s' ->
  g_trn (r_lg s') = g_trn (r_lg s) ++ flat_map (fun x => batch_losses c (ep_train x)) xs /\
  g_val (r_lg s') = g_val (r_lg s) ++ flat_map val_loss xs /\
  smallest (g_best (r_lg s')) (g_val (r_lg s')).
Proof.
  induction xs as [|x xs IH]; intros F s ds1 ds2 s' Es Ed A Sm R.
  - injection R as <-. cbn [flat_map]. rewrite !app_nil_r. auto.
  - inversion F as [|? ? F1 F2]; subst. cbn [flat_map] in *. apply all_split in A as (d1 & d2 & -> & A1 & A2).
    unfold epoch_losses in A1. apply all_split in A1 as (dt & dv & -> & At & Av). rewrite <- !app_assoc in Ed.
    unfold epoch_vols in F1. apply Forall_app in F1 as [_ Fv].
    rewrite run_app in R. unfold doc_epoch at 1 in R. rewrite run_app, run_cons in R. cbn [log_step bind] in R. unfold log_run at 1 in R. cbn [foldM bind] in R.
    rewrite run_app in R.
    match type of R with context [log_run k (doc_run c true _ _) ?z] => set (s0 := z) in R end.
    destruct (run_train c k Hk Hd (ep_skip x) (ep_train x) s0 dt (dv ++ d2 ++ ds2) eq_refl Es Ed At) as (s1 & E1 & M1 & S1 & D1 & (T1 & V1 & _ & B1)).
    rewrite E1 in R. cbn [bind] in R. unfold val_loss at 1. destruct (ep_valid x) as [v|].
    + rewrite run_app, run_cons in R. cbn [log_step bind] in R. unfold log_run at 1 in R. cbn [foldM bind] in R.
      match type of R with context [log_run k (doc_run c false _ _) ?z] => set (s2 := z) in R end.
      destruct (run_valid c k Hk Hd (ep_skip x) v s2 dv (d2 ++ ds2) Fv eq_refl S1 D1 Av) as (s3 & M3 & S3 & D3 & E3 & H1 & H2 & H3 & H4 & H5 & H6 & _ & _).
      rewrite E3 in R. destruct (log_epoch_end (r_lg s3)) as [g|] eqn:EE; [|discriminate]. cbn [bind] in R.
      apply epoch_end_val in EE as (_ & G1 & G2 & G3). rewrite H5, H6 in G2, G3. cbn [s2 r_lg] in H1, H2, H4.
      assert (smallest (g_best g) (g_val g)) as Sg by (rewrite G2, G3, H2, H4, V1, B1; now apply smallest_step).
      destruct (IH F2 (with_lg s3 g) d2 ds2 s' S3 D3 A2 Sg R) as (Q1 & Q2 & Q3). cbn [with_lg r_lg] in Q1, Q2.
      split; [|split; [|exact Q3]].
      * rewrite Q1, G1, H1, T1, <- app_assoc. reflexivity.
      * rewrite Q2, G2, H2, V1, <- app_assoc. reflexivity.
    + unfold log_run at 1 in R. cbn [foldM bind] in R. inversion Av; subst. cbn [app] in D1.
      destruct (IH F2 s1 d2 ds2 s' S1 D1 A2) as (Q1 & Q2 & Q3); [now rewrite V1, B1|exact R|].
      split; [|split; [|exact Q3]]; [rewrite Q1, T1, <- app_assoc; reflexivity|rewrite Q2, V1; reflexivity].
Qed.
End Epochs.
