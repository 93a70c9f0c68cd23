(* Curves of the logger. *)
From Coq Require Import Lia Lra String ZArith.
From Verif Require Import Base.RUtil Model.Fit Model.Monitor Model.Metric Model.Observer Model.LogPlot Spec.FitSpec Spec.MonitorSpec Proofs.MonitorP Proofs.MetricP Proofs.ObserverP Proofs.HeatGifP.
From Verif Require Import Base.XR.
Open Scope R_scope.
Open Scope list_scope.

Lemma curve_ok xs ys : length xs = length ys -> curve xs ys = Ok (combine xs ys).
Proof. intros H. unfold curve. now rewrite H, Nat.eqb_refl. Qed.
Lemma nth_combine_some {A B} (l : list A) (m : list B) i a b : nth_error l i = Some a -> nth_error m i = Some b -> nth_error (combine l m) i = Some (a, b).
Proof. revert m i. induction l as [|x l IH]; intros m [|i] Ha Hb; destruct m as [|y m]; cbn in *; try discriminate; [congruence|]. now apply IH. Qed.
(* lists of equal lengths one after the other *)
Lemma flat_len {A B} (f : A -> list B) nb l : Forall (fun x => length (f x) = nb) l -> length (flat_map f l) = (length l * nb)%nat.
Proof. induction 1 as [|x l H F IH]; [reflexivity|]. cbn. rewrite app_length, H, IH. reflexivity. Qed.
Lemma flat_nth {A B} (f : A -> list B) nb l : Forall (fun x => length (f x) = nb) l -> forall e j x b,
  nth_error l e = Some x -> nth_error (f x) j = Some b -> nth_error (flat_map f l) (e * nb + j) = Some b.
Proof.
  induction 1 as [|y l H F IH]; intros e j x b He Hj; [now destruct e|]. cbn [flat_map].
  assert (Hj' : (j < length (f x))%nat) by (apply nth_error_Some; congruence). destruct e as [|e].
  - injection He as ->. cbn. rewrite nth_error_app1; assumption.
  - cbn in He. rewrite nth_error_app2 by (rewrite H; lia). rewrite H. replace (S e * nb + j - nb)%nat with (e * nb + j)%nat by lia. eauto.
Qed.
Lemma flat_one {A B} (f : A -> list B) l : Forall (fun x => length (f x) = 1%nat) l -> length (flat_map f l) = length l.
Proof. intros H. rewrite (flat_len f 1 l H). lia. Qed.
Lemma last_of_flat {A B} (f : A -> list B) nb l x : (0 < nb)%nat -> Forall (fun x => length (f x) = nb) (l ++ [x]) -> last_of nb (flat_map f (l ++ [x])) = f x.
Proof.
  intros Hn H. unfold last_of. destruct nb as [|nb]; [lia|]. rewrite (flat_len f (S nb)) by exact H. rewrite app_length, flat_map_app. cbn [length flat_map]. rewrite app_nil_r.
  apply Forall_app in H as [H1 H2]. replace ((length l + 1) * S nb - S nb)%nat with (length (flat_map f l)) by (rewrite (flat_len f (S nb)) by exact H1; lia).
  now rewrite skipn_app, skipn_all, Nat.sub_diag.
Qed.
(* places of the training losses *)
Lemma place_nth nb nv e j : (0 < nb)%nat -> (e < nv)%nat -> (j < nb)%nat ->
  nth_error (map (fun x => 1 / INR nb + x) (linspace (INR nv) (nb * nv))) (e * nb + j) = Some (INR e + INR (S j) / INR nb).
Proof.
  intros Hn He Hj. unfold linspace. rewrite map_map. rewrite nth_error_map.
  assert (Hi : (e * nb + j < nb * nv)%nat) by nia.
  rewrite (nth_error_nth' _ 0%nat) by (rewrite seq_length; exact Hi). rewrite seq_nth by exact Hi. cbn [option_map]. f_equal. cbn [plus].
  rewrite plus_INR, !mult_INR, S_INR. assert (INR nb <> 0) by (apply not_0_INR; lia). assert (INR nv <> 0) by (apply not_0_INR; lia). field. split; assumption.
Qed.
Lemma place_len nb nv : length (map (fun x => 1 / INR nb + x) (linspace (INR nv) (nb * nv))) = (nb * nv)%nat.
Proof. unfold linspace. now rewrite !map_length, seq_length. Qed.
Lemma seq_nth_some a n i : (i < n)%nat -> nth_error (seq a n) i = Some (a + i)%nat.
Proof. intros H. rewrite (nth_error_nth' _ 0%nat) by now rewrite seq_length. now rewrite seq_nth. Qed.

(* ---- the gif ---- *)
Section Shots.
Context {W P : Type}.
Variable show : bool.
Variable len : R.
Notation cb := (@shots_cb W P show len).
Lemma shots_idle e f w x : gif_wants e = false -> cb e f w x = (Ok tt, x).
Proof. now destruct e. Qed.
Variable sees : event * fp P * W -> seen -> Prop.
Hypothesis Hsees : forall e f w n, sees (e, f, w) n -> e = n_ev n /\ is_train (f_state f) = n_train n.
Lemma replay_shots {I} (xs : list (epoch I P)) : forall e st l s s' k, show <> false ->
  Forall2 sees l (epochs_seen gif_wants e st xs) -> sh_buffer s = seq 0 k -> replay cb l s = (Ok tt, s') ->
  sh_buffer s' = seq 0 (k + length xs) /\ sh_files s' = sh_files s ++ seq k (length xs) /\ sh_gif s' = sh_gif s.
Proof.
  induction xs as [|x xs IH]; intros e st l s s' k Hs F B H.
  - inversion F; subst. cbn in H. injection H as <-. cbn. rewrite Nat.add_0_r, app_nil_r. auto.
  - cbn [epochs_seen] in F. apply Forall2_app_inv_r in F as (l1 & l2 & F1 & F2 & ->). rewrite replay_app in H.
    unfold epoch_seen, once in F1. cbn [gif_wants app o_train o_ep o_steps] in F1. inversion F1 as [|[[ev f] w] n l1' m S1 F1']; subst.
    destruct (Hsees _ _ _ _ S1) as [Sev Tr]. cbn [n_ev n_train] in Sev, Tr. subst ev.
    assert (Hr : forall y, replay cb l1' y = (Ok tt, y)).
    { intros y. destruct (ep_valid x) as [v|]; cbn in F1'; [|inversion F1'; reflexivity]. inversion F1' as [|[[ev' f'] w'] n' l1'' m' S2 F2']; subst. inversion F2'; subst.
      destruct (Hsees _ _ _ _ S2) as [Ev Tr2]. cbn [n_ev n_train] in Ev, Tr2. subst ev'. cbn [replay shots_cb]. rewrite Tr2. now rewrite Bool.andb_false_r. }
    assert (Hif : forall A (u v : A), (if show && true then u else v) = u) by (intros; destruct show; [reflexivity|congruence]).
    cbn [app replay shots_cb] in H. rewrite Tr, Hif, Hr in H.
    assert (B2 : sh_buffer (snapshot s) = seq 0 (S k)) by (cbn [snapshot sh_buffer]; rewrite B, seq_length, seq_S; reflexivity).
    destruct (IH _ _ _ _ _ _ Hs F2 B2 H) as (A1 & A2 & A3). cbn [snapshot sh_files sh_gif] in A2, A3. rewrite B, seq_length in A2. cbn [length].
    split; [rewrite A1; f_equal; lia|]. split; [rewrite A2, <- app_assoc; reflexivity|exact A3].
Qed.
End Shots.
