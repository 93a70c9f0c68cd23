(* C02: conservation of muons along every history, including histories with arguments of any shape. *)
From Verif Require Import Model.MuonBatch Spec.ListSpec Spec.MuonSpec.
From Coq Require Import Permutation.
Open Scope list_scope.
Notation len := List.length.

Lemma subseq_refl {A} (l : list A) : subseq l l.
Proof. induction l; constructor; auto. Qed.
Lemma subseq_trans {A} (l1 l2 l3 : list A) : subseq l1 l2 -> subseq l2 l3 -> subseq l1 l3.
Proof.
  intros H12 H23. revert l1 H12. induction H23 as [|a l l' _ IH|a l l' _ IH]; intros l1 H12; auto.
  - inversion H12; subst; constructor; auto.
  - constructor; auto.
Qed.
Lemma subseq_select {A} m (l : list A) : len m = len l -> subseq (select m l) l.
Proof.
  revert l; induction m as [|b m IH]; intros [|a l] Hl; simpl in *; try discriminate; [constructor|].
  destruct b; constructor; auto.
Qed.
Lemma subseq_length {A} (l l' : list A) : subseq l l' -> (len l <= len l')%nat.
Proof. induction 1; simpl; lia. Qed.

Definition keeps_mom (c : column) : Prop := forall u v, mp (cset c u v) = mp u.

Lemma col_assign_mom c m ms v ms' :
  keeps_mom c -> col_assign c m ms v = Ok ms' -> map mp ms' = map mp ms.
Proof.
  intros Hc E. unfold col_assign in E. apply bind_ok in E as [w [Ew E]]. injection E as <-.
  assert (len w = len ms) as Lw.
  { unfold bool_assign in Ew. destruct (Nat.eqb (len m) (len (col c ms))); [|discriminate].
    destruct (Nat.eqb (len v) (count_true m)); [|discriminate]. injection Ew as <-.
    rewrite put_length. apply map_length. }
  clear Ew. rewrite map_map2. revert w Lw. induction ms as [|u ms IH]; intros [|x w] Lw; simpl in *; try discriminate; auto.
  rewrite Hc, IH by lia. auto.
Qed.
Lemma kx : keeps_mom cx. Proof. intros u v; reflexivity. Qed.
Lemma ky : keeps_mom cy. Proof. intros u v; reflexivity. Qed.
Lemma kz : keeps_mom cz. Proof. intros u v; reflexivity. Qed.
Lemma kth : keeps_mom cth. Proof. intros u v; reflexivity. Qed.
Lemma kph : keeps_mom cph. Proof. intros u v; reflexivity. Qed.

Ltac inv_bind E :=
  repeat match type of E with
  | bind _ _ = Ok _ => let x := fresh "x" in let Hx := fresh "Hx" in apply bind_ok in E as [x [Hx E]]
  end.
Ltac mom_solve :=
  repeat match goal with
  | E : col_assign ?c _ ?a _ = Ok ?b |- _ =>
      let K := fresh "K" in
      assert (K : map mp b = map mp a)
        by (eapply col_assign_mom; [|exact E]; first [apply kx|apply ky|apply kz|apply kth|apply kph]); clear E
  end; congruence.

Lemma add_opt_mom c m d ms ms' : keeps_mom c -> add_opt c m d ms = Ok ms' -> map mp ms' = map mp ms.
Proof.
  intros Hc E. destruct d as [a|]; simpl in E; [|congruence]. inv_bind E.
  eapply col_assign_mom; eauto.
Qed.
Lemma dphi_mom m d ms ms' : dphi_part m d ms = Ok ms' -> map mp ms' = map mp ms.
Proof. intro E. destruct d; simpl in E; [inv_bind E; mom_solve|congruence]. Qed.
Lemma dtheta_mom m d ms ms' : dtheta_part m d ms = Ok ms' -> map mp ms' = map mp ms.
Proof. intro E. destruct d; unfold dtheta_part in E; [cbv zeta in E; inv_bind E; mom_solve|congruence]. Qed.
Lemma dtheta_xy_mom m d d' ms ms' : dtheta_xy_part m d d' ms = Ok ms' -> map mp ms' = map mp ms.
Proof. intro E. unfold dtheta_xy_part in E. cbv zeta in E. inv_bind E. mom_solve. Qed.
Lemma pdz_mom m d ms ms' : propagate_dz_ms m d ms = Ok ms' -> map mp ms' = map mp ms.
Proof. intro E. unfold propagate_dz_ms in E. cbv zeta in E. inv_bind E. mom_solve. Qed.
Lemma pd_mom m d ms ms' : propagate_d_ms m d ms = Ok ms' -> map mp ms' = map mp ms.
Proof. intro E. unfold propagate_d_ms in E. cbv zeta in E. inv_bind E. mom_solve. Qed.

(* one filtering: what happens to the batch and to the record of removed muons *)
Lemma filter_effect {H} keep (b b' : batch H) :
  filter_muons keep b = Ok b' ->
  (len (b_muons b) <= count_true keep /\ b' = b)%nat \/
  (len keep = len (b_muons b) /\
   b_muons b' = select keep (b_muons b) /\
   removed_of b' = removed_of b ++ select (negm keep) (b_muons b)).
Proof.
  intro E. unfold filter_muons in E.
  destruct (Nat.ltb_spec (count_true keep) (len (b_muons b))) as [Hlt|Hge].
  - right. cbv zeta in E. inv_bind E. injection E as <-. unfold bool_index in *.
    destruct (Nat.eqb_spec (len (negm keep)) (len (b_muons b))) as [L|]; [|discriminate].
    rewrite negm_length in L.
    destruct (Nat.eqb_spec (len keep) (len (b_muons b))) as [_|]; [|discriminate].
    injection Hx as <-. injection Hx0 as <-. repeat split; auto.
    unfold removed_of; simpl. destruct (b_removed b); auto.
  - left. split; [assumption|congruence].
Qed.

Lemma conserved_trans {H} (a b c : batch H) : conserved a b -> conserved b c -> conserved a c.
Proof.
  intros (P1 & S1 & e1 & E1) (P2 & S2 & e2 & E2). split; [|split].
  - rewrite P2; exact P1.
  - eapply subseq_trans; eauto.
  - exists (e1 ++ e2). rewrite E2, E1, app_assoc; auto.
Qed.
Lemma conserved_same {H} (b b' : batch H) :
  map mp (b_muons b') = map mp (b_muons b) -> b_removed b' = b_removed b -> conserved b b'.
Proof.
  intros E1 E2. unfold conserved, removed_of. rewrite E1, E2. split; [reflexivity|].
  split; [apply subseq_refl|]. exists []. rewrite app_nil_r; auto.
Qed.
Lemma conserved_filter {H} keep (b b' : batch H) : filter_muons keep b = Ok b' -> conserved b b'.
Proof.
  intro E. apply filter_effect in E as [[_ ->]|(L & E1 & E2)].
  - apply conserved_same; auto.
  - unfold conserved. rewrite E1, E2. split; [|split].
    + rewrite map_app, <- !select_map.
      rewrite (Permutation_app_comm (map mp (removed_of b))), app_assoc.
      apply Permutation_app_tail. apply select_perm. rewrite map_length; auto.
    + rewrite <- select_map. apply subseq_select. rewrite map_length; auto.
    + eauto.
Qed.

Lemma exec_conserved {H} (b b' : batch H) o : exec b o = Ok b' -> conserved b b'.
Proof.
  destruct o as [dx dy dz m|dth dph m|dtx dty m|dz m|d m|keep| | |hits pos]; simpl; intro E.
  - unfold scatter_dxyz in E. cbv zeta in E. inv_bind E. injection E as <-.
    apply conserved_same; simpl; auto.
    apply add_opt_mom in Hx; [|apply kx]. apply add_opt_mom in Hx0; [|apply ky]. apply add_opt_mom in Hx1; [|apply kz].
    congruence.
  - unfold scatter_dtheta_dphi in E. cbv zeta in E. inv_bind E.
    apply conserved_filter in E. eapply conserved_trans; [|exact E]. apply conserved_same; simpl; auto.
    apply dphi_mom in Hx. apply dtheta_mom in Hx0. congruence.
  - unfold scatter_dtheta_xy in E. cbv zeta in E. inv_bind E.
    apply conserved_filter in E. eapply conserved_trans; [|exact E]. apply conserved_same; simpl; auto.
    eapply dtheta_xy_mom; eauto.
  - unfold propagate_dz in E. inv_bind E. injection E as <-. apply conserved_same; simpl; auto. eapply pdz_mom; eauto.
  - unfold propagate_d in E. inv_bind E. injection E as <-. apply conserved_same; simpl; auto. eapply pd_mom; eauto.
  - eapply conserved_filter; eauto.
  - eapply conserved_filter; eauto.
  - injection E as <-. apply conserved_same; auto.
  - injection E as <-. apply conserved_same; auto.
Qed.

Lemma exec_all_conserved {H} ops : forall b b' : batch H, exec_all ops b = Ok b' -> conserved b b'.
Proof.
  unfold exec_all. induction ops as [|o ops IH]; simpl; intros b b' E.
  - injection E as <-. apply conserved_same; auto.
  - apply bind_ok in E as [b1 [E1 E]]. eapply conserved_trans; [eapply exec_conserved; eauto|]. apply IH; auto.
Qed.

Lemma conserved_count {H} (b b' : batch H) : conserved b b' ->
  (len (b_muons b') + len (removed_of b') = len (b_muons b) + len (removed_of b))%nat.
Proof. intros (P & _). apply Permutation_length in P. rewrite !app_length, !map_length in P. auto. Qed.
