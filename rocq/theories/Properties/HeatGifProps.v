(* Property C103: HeatMapGif. *)
From Coq Require Import Lia.
From Verif Require Import Base.RUtil Model.Fit Model.Observer Model.HeatGif Spec.FitSpec Spec.SaverSpec Proofs.FitP Proofs.FitAll Proofs.ObserverP Proofs.HeatGifP
  Properties.FitProps Properties.SaverProps.
Open Scope list_scope.

(* C103. If the first detector is always a heat map, then after a fit that ends normally the gif has one frame for the start of each epoch and one for the end of
   training: frame i shows the panel after the updates of the first i epochs, as any counter of updates tells.  The temporary pictures are gone; other files are as before. *)
Theorem C103_frames :
  forall W I P D (look : W -> first_detector D) can (pic : W -> D) (E : env W I P) h c1 c2 n bs n_mu mu_bs validate o w g cbs' a' tr,
  tame E (c1 ++ c2) -> ~ In h c1 -> ~ In h c2 -> (0 < bs)%nat -> (forall v, look v = HeatMap (pic v)) ->
  fit (with_obs (gif_cb look can) E h) n bs n_mu mu_bs validate (c1 ++ h :: c2) (Wrapper o (w, g)) = (Ok cbs', a', tr) ->
  exists xs frames, tr = doc_fit (Cfg (c1 ++ h :: c2) bs n_mu mu_bs) xs /\ (length xs <= n)%nat /\ (calm E (c1 ++ c2) -> length xs = n) /\
    g_gif (snd (w_w a')) = Some frames /\ length frames = S (length xs) /\
    (forall rd : D -> nat, counts_steps E (c1 ++ c2) (fun v => rd (pic v)) ->
       forall i, (i <= length xs)%nat -> exists d, nth_error frames i = Some d /\ rd d = (rd (pic w) + list_sum (map steps_in (firstn i xs)))%nat) /\
    (forall k, (k <= length xs)%nat -> g_temp (snd (w_w a')) k = None) /\
    (forall k, (length xs < k)%nat -> g_temp (snd (w_w a')) k = g_temp g k).
Proof.
  intros W I P D look can pic E h c1 c2 n bs n_mu mu_bs validate o w g cbs' a' tr HT N1 N2 Hb Hl H.
  assert (Main : exists xs, tr = doc_fit (Cfg (c1 ++ h :: c2) bs n_mu mu_bs) xs /\ (length xs <= n)%nat /\ (calm E (c1 ++ c2) -> length xs = n) /\
      forall ver : W -> nat, exists ws wl, g_gif (snd (w_w a')) = Some (map pic ws ++ [pic wl]) /\ length ws = length xs /\
      (counts_steps E (c1 ++ c2) ver -> Forall2 (fun v k => ver v = (ver w + k)%nat) ws (starts 0 xs) /\ ver wl = (ver w + list_sum (map steps_in xs))%nat) /\
      (forall k, (k <= length xs)%nat -> g_temp (snd (w_w a')) k = None) /\ (forall k, (length xs < k)%nat -> g_temp (snd (w_w a')) k = g_temp g k)).
  { destruct (obs_fit (gif_cb look can) gif_wants (gif_idle look can) gif_coarse E h c1 c2 HT N1 N2 _ _ _ _ _ _ _ _ _ _ _ Hb H) as (xs & t & T1 & T2 & T3 & HV).
    exists xs. split; [exact T1|]. split; [exact T2|]. split; [exact T3|]. intros ver. destruct (HV ver) as (l & F & R).
    change (once gif_wants SetWrapper o0) with (@nil seen) in F. change (once gif_wants TrainBegin o0) with [Seen TrainBegin false 0 0] in F.
    change (once gif_wants TrainEnd (Wt t (length xs) (list_sum (map steps_in xs)) [])) with [Seen TrainEnd t (length xs) (list_sum (map steps_in xs))] in F.
    cbn [app] in F. inversion F as [|[[ev f] v] sn l0 m S1 F1]; subst l sn m. apply Forall2_app_inv_r in F1 as (l1 & l2 & F1 & F2 & ->).
    inversion F2 as [|[[ev2 f2] wl] sn l3 m S2 F3]; subst l2 sn m. inversion F3; subst l3.
    destruct S1 as [S1 _]. cbn in S1. subst ev. destruct S2 as (S2 & _ & _ & S3). cbn [n_ev n_steps] in S2, S3. subst ev2.
    cbn [replay gif_cb] in R. rewrite replay_app in R. destruct (replay _ l1 _) as [[[]|y] g1] eqn:E1; [|discriminate].
    destruct (replay_epochs look can pic Hl (saw E c1 c2 ver (ver w)) (fun e f v n A => conj (proj1 A) (proj1 (proj2 A))) xs 0 0 l1 (Gif [] (g_temp g) (g_gif g)) [] g1 F1 eq_refl
                (fun i d A => match i as j return nth_error [] j = Some d -> _ with O => fun A => ltac:(discriminate A) | S _ => fun A => ltac:(discriminate A) end A) E1)
      as (ws & Q1 & Q2 & Q3 & Q4 & Q5).
    cbn [app g_temp] in Q1, Q2, Q4. cbn [replay gif_cb] in R. destruct (plot_current look can wl g1) as [[[]|y] g2] eqn:E2; [|discriminate].
    destruct (plot_ok look can pic Hl wl g1 g2 (map pic ws) Q1 Q2 E2) as (P1 & P2 & _ & P4).
    destruct (create_all (map pic ws ++ [pic wl]) g2 P1 P2) as (tt' & C1 & C2). rewrite C1 in R. injection R as <-. cbn [g_gif g_temp].
    assert (Lw : length ws = length xs) by (rewrite <- (F2_len _ _ _ Q5); apply starts_len).
    assert (Ld : length (map pic ws ++ [pic wl]) = S (length xs)) by (rewrite app_length, map_length; cbn; lia).
    exists ws, wl. split; [reflexivity|]. split; [exact Lw|]. split; [|split].
    - intros HC. split; [|exact (S3 HC)]. eapply F2_impl; [|exact Q5]. intros v' k (ev & f' & ep & A). apply A in HC. exact HC.
    - intros k Hk. rewrite C2, Ld. destruct (Nat.ltb_spec k (S (length xs))); [reflexivity|lia].
    - intros k Hk. rewrite C2, Ld. destruct (Nat.ltb_spec k (S (length xs))); [lia|]. rewrite P4 by (rewrite map_length; lia). apply Q4. rewrite map_length. lia. }
  destruct Main as (xs & T1 & T2 & T3 & HV). destruct (HV (fun _ => 0%nat)) as (ws & wl & G1 & G2 & _ & G3 & G4).
  exists xs, (map pic ws ++ [pic wl]). split; [exact T1|]. split; [exact T2|]. split; [exact T3|]. split; [exact G1|].
  split; [rewrite app_length, map_length; cbn; lia|]. split; [|split; [exact G3|exact G4]].
  intros rd HC i Hi. destruct (HV (fun v => rd (pic v))) as (ws' & wl' & G1' & G2' & A & _).
  rewrite G1' in G1. injection G1 as G1. destruct (A HC) as [A1 A2]. rewrite <- G1.
  destruct (Nat.eq_dec i (length xs)) as [->|N].
  - exists (pic wl'). split; [rewrite nth_error_app2, map_length, G2', Nat.sub_diag by (rewrite map_length; lia); reflexivity|]. rewrite firstn_all. exact A2.
  - assert (Hi' : (i < length xs)%nat) by lia. pose proof (starts_nth (P := P) xs 0 i Hi') as B.
    destruct (F2_nth _ _ _ _ _ A1 B) as (v & V1 & V2).
    exists (pic v). split; [rewrite nth_error_app1 by (rewrite map_length; lia); now apply map_nth_error|]. exact V2.
Qed.
Print Assumptions C103_frames.

(* However the fit ends: unless the callback was called at the end of training, the gif of an earlier fit is left as it was, and no picture is removed. *)
Theorem C103_kept :
  forall W I P D (look : W -> first_detector D) can (E : env W I P) h c1 c2 n bs n_mu mu_bs validate o w g r a' tr,
  tame E (c1 ++ c2) -> ~ In h c1 -> ~ In h c2 ->
  fit (with_obs (gif_cb look can) E h) n bs n_mu mu_bs validate (c1 ++ h :: c2) (Wrapper o (w, g)) = (r, a', tr) ->
  ~ In (Call h TrainEnd) tr ->
  g_gif (snd (w_w a')) = g_gif g /\ (forall k, g_temp g k <> None -> g_temp (snd (w_w a')) k <> None).
Proof.
  intros W I P D look can E h c1 c2 n bs n_mu mu_bs validate o w g r a' tr HT N1 N2 H NE.
  destruct (obs_any (gif_cb look can) gif_wants (gif_idle look can) E h c1 c2 HT N1 N2 (fun _ => 0%nat) _ _ _ _ _ _ _ _ _ _ _ H) as (l & q & F & R).
  apply (replay_keeps look can) in R; [exact R|]. intros e f v Hi ->. destruct (F2_in _ _ _ _ F Hi) as (sn & S1 & S2). destruct S2 as [S2 _].
  apply seen_called in S1 as [[]|S1]. rewrite <- S2 in S1. contradiction.
Qed.
Print Assumptions C103_kept.

(* With another kind of detector first the fit never ends normally, and no gif is written. *)
Theorem C103_not_heat :
  forall W I P D (look : W -> first_detector D) can (E : env W I P) h c1 c2 n bs n_mu mu_bs validate o w g r a' tr,
  tame E (c1 ++ c2) -> ~ In h c1 -> ~ In h c2 -> (0 < bs)%nat -> (forall v, look v = OtherDetector) ->
  fit (with_obs (gif_cb look can) E h) n bs n_mu mu_bs validate (c1 ++ h :: c2) (Wrapper o (w, g)) = (r, a', tr) ->
  (exists e, r = Err e) /\ g_gif (snd (w_w a')) = g_gif g /\ g_temp (snd (w_w a')) = g_temp g.
Proof.
  intros W I P D look can E h c1 c2 n bs n_mu mu_bs validate o w g r a' tr HT N1 N2 Hb Hl H. split.
  - destruct r as [cbs'|e]; [|eauto].
    destruct (obs_fit (gif_cb look can) gif_wants (gif_idle look can) gif_coarse E h c1 c2 HT N1 N2 _ _ _ _ _ _ _ _ _ _ _ Hb H) as (xs & t & _ & _ & _ & HV).
    exfalso. destruct (HV (fun _ => 0%nat)) as (l & F & R). rewrite !app_assoc in F. apply Forall2_app_inv_r in F as (l' & l2 & _ & F & ->).
    inversion F as [|[[ev f] v] sn l3 m S1 F3]; subst l2 sn m. inversion F3; subst l3. destruct S1 as [S1 _]. cbn in S1. subst ev. rewrite replay_app in R.
    destruct (replay _ l' _) as [[[]|y] g1]; [|discriminate]. cbn in R. unfold plot_current in R. rewrite Hl in R. discriminate.
  - destruct (obs_any (gif_cb look can) gif_wants (gif_idle look can) E h c1 c2 HT N1 N2 (fun _ => 0%nat) _ _ _ _ _ _ _ _ _ _ _ H) as (l & q & _ & R).
    exact (replay_other look can Hl _ _ _ _ R).
Qed.
Print Assumptions C103_not_heat.

(* With no detector, or none with a panel, the fit cannot end normally either, unless a picture was left by an earlier fit. *)
Theorem C103_nothing_to_plot :
  forall W I P D (look : W -> first_detector D) can (E : env W I P) h c1 c2 n bs n_mu mu_bs validate o w g r a' tr,
  tame E (c1 ++ c2) -> ~ In h c1 -> ~ In h c2 -> (0 < bs)%nat -> (forall v, look v = NoDetector \/ look v = NoPanel) -> g_temp g 0%nat = None ->
  fit (with_obs (gif_cb look can) E h) n bs n_mu mu_bs validate (c1 ++ h :: c2) (Wrapper o (w, g)) = (r, a', tr) ->
  exists e, r = Err e.
Proof.
  intros W I P D look can E h c1 c2 n bs n_mu mu_bs validate o w g r a' tr HT N1 N2 Hb Hl H0 H. destruct r as [cbs'|e]; [|eauto].
  destruct (obs_fit (gif_cb look can) gif_wants (gif_idle look can) gif_coarse E h c1 c2 HT N1 N2 _ _ _ _ _ _ _ _ _ _ _ Hb H) as (xs & t & _ & _ & _ & HV).
  exfalso. destruct (HV (fun _ => 0%nat)) as (l & F & R).
  change (once gif_wants SetWrapper o0) with (@nil seen) in F. change (once gif_wants TrainBegin o0) with [Seen TrainBegin false 0 0] in F. cbn [app] in F.
  inversion F as [|[[ev f] v] sn l0 m S1 F1]; subst l sn m. destruct S1 as [S1 _]. cbn in S1. subst ev. cbn [replay gif_cb] in R.
  apply Forall2_app_inv_r in F1 as (l' & l2 & _ & F1 & ->). inversion F1 as [|[[ev f'] v'] sn l3 m S1 F3]; subst l2 sn m. inversion F3; subst l3. destruct S1 as [S1 _]. cbn in S1. subst ev.
  rewrite replay_app in R. destruct (replay _ l' _) as [[[]|y] g1] eqn:E1; [|discriminate].
  apply (replay_void look can Hl) in E1; [|split; [left; reflexivity|exact H0]]. destruct (void_end (P := P) look can Hl f' v' g1 E1) as [g2 E2]. cbn [replay] in R. rewrite E2 in R. discriminate.
Qed.
Print Assumptions C103_nothing_to_plot.

(* examples: the world counts the updates and is its own picture *)
Definition own (w : nat) : first_detector nat := HeatMap w.
Definition g_none : gif nat := Gif [] (fun _ => None) None.
Example C103_case :
  let '(r, a, tr) := fit (with_obs (gif_cb own free) (upd_env quiet_cb 5 3) 1) 3 2 10 5 true [0; 1; 2]%nat (Wrapper None (10%nat, g_none)) in
  r = Ok [0; 1; 2]%nat /\ g_gif (snd (w_w a)) = Some [10; 12; 14; 16]%nat /\ map (g_temp (snd (w_w a))) (seq 0 6) = repeat None 6.
Proof. vm_compute. auto. Qed.
Example C103_case_late :
  let '(r, a, tr) := fit (with_obs (gif_cb own free) (upd_env late_cb 5 3) 1) 3 2 10 5 false [0; 1; 2]%nat (Wrapper None (0%nat, Gif [] (fun _ => None) (Some [7]%nat))) in
  r = Err (UserExn 7) /\ g_gif (snd (w_w a)) = Some [7]%nat /\ map (g_temp (snd (w_w a))) (seq 0 4) = [Some 0; Some 2; Some 4; None]%nat /\ existsb (fun i => match i with Call 1 TrainEnd => true | _ => false end) tr = false.
Proof. vm_compute. auto. Qed.
Example C103_case_other :
  let '(r, a, tr) := fit (with_obs (gif_cb (fun _ => @OtherDetector nat) free) (upd_env quiet_cb 5 3) 1) 3 2 10 5 true [0; 1; 2]%nat (Wrapper None (10%nat, g_none)) in
  r = Err NotImplementedError /\ g_gif (snd (w_w a)) = None.
Proof. vm_compute. auto. Qed.

(* Not so: that the pictures are only buffered for the gif, i.e. gone when the fit is over.  A fit that is interrupted leaves them. *)
Theorem C103_removed_refuted :
  exists (E : env nat nat nat) w r a tr,
  tame E [0%nat; 2%nat] /\ fit (with_obs (gif_cb own free) E 1) 3 2 10 5 true [0; 1; 2]%nat (Wrapper None (w, g_none)) = (r, a, tr) /\
  g_gif (snd (w_w a)) = None /\ g_temp (snd (w_w a)) 0%nat <> None.
Proof.
  exists (upd_env late_cb 5 3), 0%nat. do 3 eexists. split; [apply late_tame|]. split; [vm_compute; reflexivity|]. vm_compute. split; [reflexivity|discriminate].
Qed.
Print Assumptions C103_removed_refuted.
(* Not so: that a volume without heat maps is told about before training.  With no detector (or no panel in it) all of the training is done, then the fit raises;
   the gif of an earlier fit has been replaced by an empty one. *)
Theorem C103_early_refuted :
  exists (E : env nat nat nat) w g a tr,
  tame E [] /\ g_temp g 0%nat = None /\ g_gif g = Some [7%nat] /\
  fit (with_obs (gif_cb (fun _ => @NoPanel nat) free) E 1) 3 2 10 5 true [1%nat] (Wrapper None (w, g)) = (Err FileNotFoundError, a, tr) /\
  fst (w_w a) = (w + 6)%nat /\ g_gif (snd (w_w a)) = Some [].
Proof.
  exists (upd_env quiet_cb 5 3), 0%nat, (Gif [] (fun _ => None) (Some [7%nat])). do 2 eexists. split; [apply upd_tame|]. split; [reflexivity|]. split; [reflexivity|].
  split; [vm_compute; reflexivity|]. vm_compute. auto.
Qed.
Print Assumptions C103_early_refuted.
