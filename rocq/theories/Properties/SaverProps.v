(* Property C98: EpochSave. *)
From Coq Require Import Lia.
From Verif Require Import Base.RUtil Model.Fit Model.Saver Spec.FitSpec Spec.SaverSpec Proofs.FitP Proofs.FitScan Proofs.FitAll Proofs.FitCount Proofs.SaverP
  Properties.FitProps.
Open Scope list_scope.

(* what is known at the end of a fit *)
Lemma saver_end {W I P D} (snap : W -> D) can (E : env W I P) h c1 c2 (rd : D -> nat) n bs n_mu mu_bs validate o w fs cbs' a' tr :
  tame E (c1 ++ c2) -> ~ In h c1 -> ~ In h c2 -> (0 < bs)%nat ->
  fit (with_saver snap can E h) n bs n_mu mu_bs validate (c1 ++ h :: c2) (Wrapper o (w, fs)) = (Ok cbs', a', tr) ->
  let c := Cfg (c1 ++ h :: c2) bs n_mu mu_bs in
  exists xs new, tr = doc_fit c xs /\ (length xs <= n)%nat /\ ((0 < n)%nat -> (0 < length xs)%nat) /\ (calm E (c1 ++ c2) -> length xs = n) /\
    Forall (epoch_shape c validate (e_len E TrnData) (e_len E ValData)) xs /\
    Forall (fun x => Forall (loss_iff (has_loss E)) (epoch_vols x)) xs /\
    snd (w_w a') = fs ++ new /\ map fst new = seq 1 (length xs) /\
    (counts_steps E (c1 ++ c2) (fun w => rd (snap w)) ->
       map (fun x => rd (snd x)) new = map (fun i => rd (snap w) + list_sum (map steps_in (firstn i xs)))%nat (seq 1 (length xs))) /\
    (changes_in_update E (c1 ++ c2) snap -> (0 < n)%nat -> exists l k, new = l ++ [(k, snap (fst (w_w a')))]).
Proof.
  intros HT N1 N2 Hb H c. pose proof (filter_other h c1 c2 N1 N2) as HF. rewrite <- HF in HT.
  destruct (C41_order _ _ _ _ _ _ _ _ _ _ _ _ _ _ (tame_saver snap can E h _ HT) Hb H) as (xs & Ht & L1 & L2 & L3 & F1 & F2). exists xs.
  destruct (walk_fit h c c1 c2 eq_refl N1 N2 xs) as [t Hw]. fold c in Ht, F1. rewrite <- Ht in Hw.
  unfold fit in H. destruct (e_mkdir _ _) as [[[]|e] w1] eqn:Em; [|discriminate].
  destruct (fit_body _ _ _ _) as [r s] eqn:EB. destruct r as [[]|e]; [|discriminate]. injection H as <- <- <-.
  cbn [w_w] in Em. change (lift_f (e_mkdir E) (w, fs) = (Ok tt, w1)) in Em. apply lift_snd in Em as (v & Em & ->). cbn [fst snd] in *.
  pose proof (T_body snap can E h (c1 ++ h :: c2) HT rd (rd (snap v)) fs validate _ _ _ EB) as HB. cbn in HB.
  destruct HB as (_ & _ & new & A1 & A2 & A3 & A4).
  { unfold T. cbn. split; [reflexivity|]. split; [reflexivity|]. exists []. rewrite app_nil_r. repeat split; auto. discriminate. }
  rewrite HF in A3, A4. rewrite Hw in A2, A3, A4. cbn [k_log k_clean k_steps] in A2, A3, A4. exists new. cbn [w_w].
  split; [exact Ht|]. split; [exact L1|]. split; [exact L2|]. split; [intros HC; apply L3, calm_saver; now rewrite HF|]. split; [exact F1|].
  split; [|split; [exact A1|split; [|split]]].
  - clear - F2. unfold has_loss in *. cbn in F2. now destruct (e_loss E).
  - rewrite A2. unfold due. rewrite map_map. cbn. apply map_id.
  - intros HC. rewrite (proj2 (A3 HC)). unfold due. rewrite map_map. apply map_ext. intros i. cbn [snd plus].
    destruct HC as (_ & _ & _ & _ & _ & _ & HM). now rewrite (HM _ _ Em).
  - intros HU Hn. apply A4; [exact HU|]. destruct xs; [cbn in L2; lia|reflexivity].
Qed.

(* C98. After a fit that ends normally there is one file for each epoch, with the number of the epoch, each written once; other files are as before. *)
Theorem C98_files :
  forall W I P D (snap : W -> D) can (E : env W I P) h c1 c2 n bs n_mu mu_bs validate o w fs cbs' a' tr,
  tame E (c1 ++ c2) -> ~ In h c1 -> ~ In h c2 -> (0 < bs)%nat ->
  fit (with_saver snap can E h) n bs n_mu mu_bs validate (c1 ++ h :: c2) (Wrapper o (w, fs)) = (Ok cbs', a', tr) ->
  exists e, e = count is_begin tr /\ (e <= n)%nat /\ (calm E (c1 ++ c2) -> e = n) /\ length (snd (w_w a')) = (length fs + e)%nat /\
    (forall i, (1 <= i <= e)%nat -> on_disk i (snd (w_w a')) <> None /\ count_occ Nat.eq_dec (map fst (skipn (length fs) (snd (w_w a')))) i = 1%nat) /\
    (forall i, (i < 1 \/ e < i)%nat -> on_disk i (snd (w_w a')) = on_disk i fs).
Proof.
  intros W I P D snap can E h c1 c2 n bs n_mu mu_bs validate o w fs cbs' a' tr HT N1 N2 Hb H.
  destruct (saver_end snap can E h c1 c2 (fun _ => 0%nat) _ _ _ _ _ _ _ _ _ _ _ HT N1 N2 Hb H) as (xs & new & Ht & L1 & _ & L3 & _ & _ & A1 & A2 & _).
  exists (length xs).
  assert (Hl : length new = length xs) by now rewrite <- (map_length fst), A2, seq_length. split; [|split; [exact L1|split; [exact L3|split; [|split]]]].
  - set (c := Cfg (c1 ++ h :: c2) bs n_mu mu_bs) in *. destruct (walk_fit h c c1 c2 eq_refl N1 N2 xs) as [t Hw].
    pose proof (walk_ep h tr k0) as K. rewrite Ht in K at 1. rewrite Hw in K. cbn [k_ep k0] in K. lia.
  - rewrite A1, app_length. lia.
  - intros i Hi. assert (Hin : In i (map fst new)) by (rewrite A2; apply in_seq; lia). split.
    + apply in_map_iff in Hin as [[j d] [<- Hd]]. rewrite A1. cbn [fst]. rewrite (disk_new fs new j d); [discriminate| |exact Hd]. rewrite A2. apply seq_NoDup.
    + rewrite A1, skipn_app, skipn_all, Nat.sub_diag. cbn [skipn app]. apply NoDup_count_occ'; [rewrite A2; apply seq_NoDup|exact Hin].
  - intros i Hi. rewrite A1. apply disk_old. rewrite A2. intros Hin. apply in_seq in Hin. lia.
Qed.
Print Assumptions C98_files.

(* The file of an epoch has what the detector was after the updates of all epochs up to it: any counter of updates tells so. *)
Theorem C98_updates :
  forall W I P D (snap : W -> D) can (E : env W I P) h c1 c2 (rd : D -> nat) n bs n_mu mu_bs validate o w fs cbs' a' tr,
  tame E (c1 ++ c2) -> ~ In h c1 -> ~ In h c2 -> (0 < bs)%nat ->
  counts_steps E (c1 ++ c2) (fun w => rd (snap w)) ->
  fit (with_saver snap can E h) n bs n_mu mu_bs validate (c1 ++ h :: c2) (Wrapper o (w, fs)) = (Ok cbs', a', tr) ->
  exists xs, tr = doc_fit (Cfg (c1 ++ h :: c2) bs n_mu mu_bs) xs /\
    forall i, (1 <= i <= length xs)%nat -> exists d, on_disk i (snd (w_w a')) = Some d /\ rd d = (rd (snap w) + list_sum (map steps_in (firstn i xs)))%nat.
Proof.
  intros W I P D snap can E h c1 c2 rd n bs n_mu mu_bs validate o w fs cbs' a' tr HT N1 N2 Hb HC H.
  destruct (saver_end snap can E h c1 c2 rd _ _ _ _ _ _ _ _ _ _ _ HT N1 N2 Hb H) as (xs & new & Ht & _ & _ & _ & _ & _ & A1 & A2 & A3 & _).
  exists xs. split; [exact Ht|]. intros i Hi. specialize (A3 HC).
  assert (Hl : length new = length xs) by now rewrite <- (map_length fst), A2, seq_length.
  destruct (nth_error new (i - 1)) as [[j d]|] eqn:En; [|apply nth_error_None in En; lia].
  assert (S1 : nth_error (seq 1 (length xs)) (i - 1) = Some i).
  { rewrite (nth_error_nth' _ 0%nat) by (rewrite seq_length; lia). rewrite seq_nth by lia. f_equal. lia. }
  pose proof (map_nth_error fst _ _ En) as E1. rewrite A2, S1 in E1. injection E1 as E1. cbn in E1. subst j.
  pose proof (map_nth_error (fun x => rd (snd x)) _ _ En) as E2. rewrite A3, (map_nth_error _ _ _ S1) in E2. injection E2 as E2. cbn in E2.
  exists d. split; [|now rewrite <- E2]. rewrite A1. apply disk_new; [rewrite A2; apply seq_NoDup|]. exact (nth_error_In _ _ En).
Qed.
Print Assumptions C98_updates.

(* The file of the last epoch has the state that the fit ends with, if only the update of the detector changes it. *)
Theorem C98_last :
  forall W I P D (snap : W -> D) can (E : env W I P) h c1 c2 n bs n_mu mu_bs validate o w fs cbs' a' tr,
  tame E (c1 ++ c2) -> ~ In h c1 -> ~ In h c2 -> (0 < bs)%nat -> (0 < n)%nat ->
  changes_in_update E (c1 ++ c2) snap ->
  fit (with_saver snap can E h) n bs n_mu mu_bs validate (c1 ++ h :: c2) (Wrapper o (w, fs)) = (Ok cbs', a', tr) ->
  on_disk (count is_begin tr) (snd (w_w a')) = Some (snap (fst (w_w a'))).
Proof.
  intros W I P D snap can E h c1 c2 n bs n_mu mu_bs validate o w fs cbs' a' tr HT N1 N2 Hb Hn HU H.
  destruct (saver_end snap can E h c1 c2 (fun _ => 0%nat) _ _ _ _ _ _ _ _ _ _ _ HT N1 N2 Hb H) as (xs & new & Ht & L1 & L2 & _ & _ & _ & A1 & A2 & _ & A4).
  specialize (L2 Hn). destruct (A4 HU Hn) as (l & k & ->).
  assert (Hk : k = length xs).
  { assert (Hl : length (l ++ [(k, snap (fst (w_w a')))]) = length xs) by now rewrite <- (map_length fst), A2, seq_length. rewrite app_length in Hl. cbn in Hl.
    rewrite map_app in A2. cbn in A2. destruct (length xs) as [|m] eqn:El; [lia|]. rewrite seq_S in A2. apply app_inj_tail in A2. lia. }
  assert (Hc : count is_begin tr = length xs).
  { set (c := Cfg (c1 ++ h :: c2) bs n_mu mu_bs) in *. destruct (walk_fit h c c1 c2 eq_refl N1 N2 xs) as [t Hw].
    pose proof (walk_ep h tr k0) as K. rewrite Ht in K at 1. rewrite Hw in K. cbn [k_ep k0] in K. lia. }
  rewrite Hc, A1, <- Hk. apply disk_new; [rewrite A2; apply seq_NoDup|]. apply in_or_app. right. now left.
Qed.
Print Assumptions C98_last.

(* However the fit ends, what was written is numbered from one; only the file of the epoch in which it ended may be missing. *)
Theorem C98_interrupted :
  forall W I P D (snap : W -> D) can (E : env W I P) h c1 c2 n bs n_mu mu_bs validate o w fs r a' tr,
  tame E (c1 ++ c2) -> ~ In h c1 -> ~ In h c2 -> (0 < bs)%nat ->
  fit (with_saver snap can E h) n bs n_mu mu_bs validate (c1 ++ h :: c2) (Wrapper o (w, fs)) = (r, a', tr) ->
  exists new k, snd (w_w a') = fs ++ new /\ map fst new = seq 1 k /\ (k <= n)%nat /\ (k <= count is_begin tr <= S k)%nat.
Proof.
  intros W I P D snap can E h c1 c2 n bs n_mu mu_bs validate o w fs r a' tr HT N1 N2 Hb H. pose proof (filter_other h c1 c2 N1 N2) as HF. rewrite <- HF in HT.
  destruct (C41_order_always _ _ _ _ _ _ _ _ _ _ _ _ _ _ (tame_saver snap can E h _ HT) Hb H) as (e & He & Hp).
  set (c := Cfg (c1 ++ h :: c2) bs n_mu mu_bs) in *.
  destruct (prefix_fit h c c1 c2 eq_refl N1 N2 _ _ Hp) as (m & M1 & M2 & M3 & M4). rewrite repeat_length in M2.
  destruct (skel_walk h tr k0 k0 eq_refl eq_refl eq_refl) as [K1 K2]. rewrite K1 in M3, M4. rewrite K2 in M1.
  pose proof (walk_ep h tr k0) as K. cbn [k_ep k0 plus] in K. rewrite <- K.
  unfold fit in H. destruct (e_mkdir _ _) as [q w1] eqn:Em. cbn [w_w] in Em. change (lift_f (e_mkdir E) (w, fs) = (q, w1)) in Em. apply lift_snd in Em as (v & Em & ->). cbn [snd] in *.
  destruct q as [[]|x]; [|injection H as _ <- <-; exists [], 0%nat; cbn; rewrite app_nil_r; repeat split; lia].
  destruct (fit_body _ _ _ _) as [q s] eqn:EB. injection H as _ <- <-. cbn [w_w].
  pose proof (T_body snap can E h (c1 ++ h :: c2) HT (fun _ => 0%nat) 0 fs validate _ _ _ EB) as HB.
  assert (HQ : Q h fs s).
  { destruct q as [[]|x]; [eapply T_Q|]; apply HB; unfold T; cbn; (split; [reflexivity|]; split; [reflexivity|]; exists []; rewrite app_nil_r; repeat split; auto; discriminate). }
  destruct HQ as (new & A1 & A2). exists new. destruct A2 as [A2|A2]; rewrite M1 in A2.
  - exists m. repeat split; auto; lia.
  - destruct m as [|m]; [destruct (map fst new); discriminate|]. rewrite seq_S in A2. apply app_inj_tail in A2 as [A2 A3]. exists m. rewrite <- A2. repeat split; auto; lia.
Qed.
Print Assumptions C98_interrupted.

(* an example: the world counts the updates; a callback that raises in the second epoch *)
Definition upd_env cb n_trn n_val : env nat nat nat :=
  Fit.Env cb (fun d => match d with TrnData => n_trn | ValData => n_val | TstData => 0%nat end)
    (fun _ i => nop i) (fun _ => nop tt) (nop tt) (fun _ => nop tt) (nop tt) (nop tt) (nop tt) (nop (Some 4%nat))
    (Some (fun p => nop (INR p))) (nop tt) (fun _ => nop tt) (tick tt) (nop tt) (nop tt) (nop tt) (nop tt) (fun w => w).
Definition late_cb (k : nat) (e : event) (x : fp nat * nat) : res unit * (fp nat * nat) :=
  match e with VolumeBegin => if (3 <? snd x)%nat then (Err (UserExn 7), x) else (Ok tt, x) | _ => (Ok tt, x) end.
Lemma upd_tame n1 n2 cbs : tame (upd_env quiet_cb n1 n2) cbs.
Proof. intros k e f w f' w' _ [= <- <-]. auto 12. Qed.
Lemma late_tame n1 n2 cbs : tame (upd_env late_cb n1 n2) cbs.
Proof. intros k e f w f' w' _. cbn. unfold late_cb. destruct e; cbn; try (intros [= <- <-]; auto 12). destruct w as [|[|[|[|w]]]]; intros [= <- <-]; auto 12. Qed.
Lemma upd_counts n1 n2 cbs : counts_steps (upd_env quiet_cb n1 n2) cbs (fun w => w) /\ changes_in_update (upd_env quiet_cb n1 n2) cbs (fun w => w).
Proof.
  unfold counts_steps, changes_in_update. repeat match goal with |- _ /\ _ => split end; cbn [upd_env e_step e_cb e_next e_predict e_loss e_mkdir]; unfold quiet_cb, nop, tick.
  - intros w w' [= <-]. reflexivity.
  - intros i g w w'. destruct i; cbn; unfold nop, tick; intros Hi Hs Hw; try discriminate; injection Hi as <-; injection Hw as <-; reflexivity.
  - intros k e f w f' w' _ [= _ <-]. reflexivity.
  - intros d i w x w' [= _ <-]. reflexivity.
  - intros w x w' [= _ <-]. reflexivity.
  - intros f p w x w' [= <-] [= _ <-]. reflexivity.
  - intros w w' [= <-]. reflexivity.
  - intros i g w w'. destruct i; cbn; unfold nop, tick; intros Hi Hs Hw; try discriminate; injection Hi as <-; injection Hw as <-; reflexivity.
  - intros k e f w f' w' _ _ [= _ <-]. reflexivity.
  - intros d i w x w' [= _ <-]. reflexivity.
  - intros w x w' [= _ <-]. reflexivity.
  - intros f p w x w' [= <-] [= _ <-]. reflexivity.
Qed.
Definition free {W} (n : nat) (w : W) : res unit := Ok tt.
Example C98_case :
  let '(r, a, tr) := fit (with_saver (fun w => w) free (upd_env quiet_cb 5 3) 1) 3 2 10 5 true [0; 1; 2]%nat (Wrapper None (10, [(7, 70)])%nat) in
  r = Ok [0; 1; 2]%nat /\ snd (w_w a) = [(7, 70); (1, 12); (2, 14); (3, 16)]%nat /\ fst (w_w a) = 16%nat /\ on_disk 2 (snd (w_w a)) = Some 14%nat.
Proof. vm_compute. auto. Qed.
Example C98_case_late :
  let '(r, a, tr) := fit (with_saver (fun w => w) free (upd_env late_cb 5 3) 1) 3 2 10 5 false [0; 1; 2]%nat (Wrapper None (0, [])%nat) in
  r = Err (UserExn 7) /\ snd (w_w a) = [(1, 2); (2, 4)]%nat.
Proof. vm_compute. auto. Qed.

(* Not so: "to a unique file".  Training goes on in a second fit with the same folder, its first epoch replaces the file of the first epoch of the first fit. *)
Theorem C98_unique_refuted :
  exists (E : env nat nat nat) a cbs1 a1 tr1 cbs2 a2 tr2 d,
  tame E [1%nat] /\ counts_steps E [] (fun w => w) /\
  fit (with_saver (fun w => w) free E 1) 2 2 10 5 true [1%nat] a = (Ok cbs1, a1, tr1) /\
  fit (with_saver (fun w => w) free E 1) 1 2 10 5 true [1%nat] a1 = (Ok cbs2, a2, tr2) /\
  on_disk 1 (snd (w_w a1)) = Some d /\ on_disk 1 (snd (w_w a2)) <> Some d /\ on_disk 2 (snd (w_w a2)) = on_disk 2 (snd (w_w a1)) /\
  ~ In d (map (fun i => match on_disk i (snd (w_w a2)) with Some x => x | None => 0%nat end) (seq 0 10)).
Proof.
  exists (upd_env quiet_cb 5 3), (Wrapper None (10, [])%nat). do 6 eexists. exists 12%nat. split; [apply upd_tame|]. split; [apply upd_counts|].
  split; [vm_compute; reflexivity|]. split; [vm_compute; reflexivity|]. vm_compute. repeat split; try discriminate. intuition discriminate.
Qed.
Print Assumptions C98_unique_refuted.
