(* C09: batches never share storage. *)
From Verif Require Import Model.MuonHeap Spec.HeapSpec.
Open Scope list_scope.
Notation len := List.length.
Open Scope nat_scope.

Section P.
Variable H : Type.
Implicit Types w : world H.

Lemma copy_spec (b : batch H) : copy b = Ok (Batch (b_muons b) None [] []).
Proof.
  unfold copy, new_batch. rewrite !map_length, Nat.eqb_refl. f_equal. f_equal.
  induction (b_muons b) as [|[] l IH]; simpl; auto. rewrite IH; auto.
Qed.

Lemma exec_split (b : batch H) p :
  exec b p = (ms <- inplace b p ;; after (with_muons b ms) p).
Proof.
  destruct p; simpl; auto.
  - unfold scatter_dxyz. destruct (add_opt cx _ _ _); simpl; auto.
    destruct (add_opt cy _ _ _); simpl; auto. 
  - unfold scatter_dtheta_dphi. destruct (dphi_part _ _ _); simpl; auto.
  - destruct b; reflexivity.
  - destruct b; reflexivity.
Qed.

Lemma after_muons_same (b b2 : batch H) p : rebinds b p = false -> after b p = Ok b2 -> b_muons b2 = b_muons b.
Proof.
  destruct p; simpl; intros Hr E; try (injection E as <-; reflexivity);
    unfold remove_upwards_muons, filter_muons in E; rewrite Hr in E; injection E as <-; reflexivity.
Qed.

Lemma set_nth_replace {A} i (a : A) l : set_nth i a l = replace i a l.
Proof. revert i; induction l; intros [|i]; simpl; auto. Qed.
Lemma set_nth_length {A} i (a : A) l : len (set_nth i a l) = len l.
Proof. revert i; induction l; intros [|i]; simpl; auto. Qed.
Lemma nth_set_nth_eq {A} i (a : A) l d : i < len l -> nth i (set_nth i a l) d = a.
Proof. revert i; induction l; intros [|i]; simpl; intro; try lia; auto. apply IHl; lia. Qed.
Lemma nth_set_nth_neq {A} i j (a : A) l d : i <> j -> nth j (set_nth i a l) d = nth j l d.
Proof. revert i j; induction l; intros [|i] [|j]; simpl; intro; try lia; auto. Qed.
Lemma nth_error_set_nth_neq {A} i j (a : A) l : i <> j -> nth_error (set_nth i a l) j = nth_error l j.
Proof. revert i j; induction l; intros [|i] [|j]; simpl; intro; try lia; auto. Qed.
Lemma nth_error_set_nth_eq {A} i (a : A) l : i < len l -> nth_error (set_nth i a l) i = Some a.
Proof. revert i; induction l; intros [|i]; simpl; intro; try lia; auto. apply IHl; lia. Qed.

(* every object has its own cell *)
Definition separate w : Prop :=
  (forall i ob, nth_error (w_objs w) i = Some ob -> o_addr ob < len (w_cells w)) /\
  (forall i j ob ob', nth_error (w_objs w) i = Some ob -> nth_error (w_objs w) j = Some ob' ->
     o_addr ob = o_addr ob' -> i = j).

Lemma view_nth w i : nth_error (view w) i = match nth_error (w_objs w) i with Some ob => Some (load w ob) | None => None end.
Proof. unfold view. apply nth_error_map. Qed.

Lemma nth_error_ext' {A} (l l' : list A) : (forall i, nth_error l i = nth_error l' i) -> l = l'.
Proof.
  revert l'; induction l as [|a l IH]; intros [|a' l'] E; auto.
  - specialize (E 0); discriminate.
  - specialize (E 0); discriminate.
  - pose proof (E 0) as E0; injection E0 as ->. f_equal. apply IH. intro i. apply (E (S i)).
Qed.

Lemma alloc_sep w b : separate w -> separate (alloc_obj w b) /\ view (alloc_obj w b) = view w ++ [b].
Proof.
  intros [S1 S2]. split.
  - split; simpl.
    + intros i ob E. rewrite app_length; simpl.
      destruct (Nat.lt_ge_cases i (len (w_objs w))) as [Hi|Hi].
      * rewrite nth_error_app1 in E by auto. apply S1 in E. lia.
      * rewrite nth_error_app2 in E by auto. destruct (i - len (w_objs w)) as [|k]; simpl in E.
        -- injection E as <-; simpl; lia.
        -- destruct k; discriminate.
    + intros i j ob ob' E E' Ha.
      destruct (Nat.lt_ge_cases i (len (w_objs w))) as [Hi|Hi]; destruct (Nat.lt_ge_cases j (len (w_objs w))) as [Hj|Hj].
      * rewrite nth_error_app1 in E, E' by auto. eapply S2; eauto.
      * rewrite nth_error_app1 in E by auto. rewrite nth_error_app2 in E' by auto.
        destruct (j - len (w_objs w)) as [|[|k]]; simpl in E'; try discriminate. injection E' as <-.
        apply S1 in E. simpl in Ha. lia.
      * rewrite nth_error_app1 in E' by auto. rewrite nth_error_app2 in E by auto.
        destruct (i - len (w_objs w)) as [|[|k]]; simpl in E; try discriminate. injection E as <-.
        apply S1 in E'. simpl in Ha. lia.
      * rewrite nth_error_app2 in E, E' by auto.
        destruct (i - len (w_objs w)) as [|[|k]] eqn:Ei; simpl in E; try discriminate.
        destruct (j - len (w_objs w)) as [|[|k]] eqn:Ej; simpl in E'; try discriminate. lia.
  - unfold view; simpl. rewrite map_app; simpl. f_equal.
    + apply map_ext_in. intros ob Hin. apply In_nth_error in Hin as [i Hi]. apply S1 in Hi.
      unfold load; simpl. rewrite app_nth1; auto.
    + unfold load; simpl. rewrite app_nth2, Nat.sub_diag by lia. destruct b; reflexivity.
Qed.

Lemma wstep_sep w o : separate w ->
  match wstep w o with
  | Ok w' => separate w' /\ sep_step (view w) o = Ok (view w')
  | Err e => sep_step (view w) o = Err e
  end.
Proof.
  intros S. pose proof S as [S1 S2]. destruct o as [rows z|i|i p]; simpl.
  - destruct (new_batch rows z) as [b|e]; simpl; auto.
    destruct (alloc_sep w b S) as [A ->]. auto.
  - rewrite view_nth. destruct (nth_error (w_objs w) i) as [ob|]; auto.
    rewrite copy_spec. simpl.
    destruct (alloc_sep w (Batch (nth (o_addr ob) (w_cells w) []) None [] []) S) as [A V]. split; auto.
    unfold load in *; simpl in *. rewrite <- V. reflexivity.
  - rewrite view_nth. destruct (nth_error (w_objs w) i) as [ob|] eqn:Ei; auto.
    pose proof (nth_error_Some (w_objs w) i) as Hl. rewrite Ei in Hl.
    assert (i < len (w_objs w)) as Hi by (apply Hl; discriminate).
    pose proof (S1 _ _ Ei) as Ha.
    rewrite exec_split. destruct (inplace (load w ob) p) as [ms|e] eqn:Em; simpl; auto.
    destruct (after (with_muons (load w ob) ms) p) as [b2|e] eqn:Ea; simpl; auto.
    destruct (rebinds (with_muons (load w ob) ms) p) eqn:Er.
    + split.
      * split; simpl.
        -- intros j o' E. rewrite app_length, set_nth_length; simpl.
           destruct (Nat.eq_dec i j) as [<-|Hn].
           ++ rewrite nth_error_set_nth_eq in E by auto. injection E as <-. simpl. rewrite set_nth_length. lia.
           ++ rewrite nth_error_set_nth_neq in E by auto. apply S1 in E. lia.
        -- intros j k oj ok Ej Ek Eq.
           destruct (Nat.eq_dec i j) as [<-|Hj]; destruct (Nat.eq_dec i k) as [<-|Hk]; auto.
           ++ rewrite nth_error_set_nth_eq in Ej by auto. injection Ej as <-. simpl in Eq. rewrite set_nth_length in Eq.
              rewrite nth_error_set_nth_neq in Ek by auto. apply S1 in Ek. lia.
           ++ rewrite nth_error_set_nth_eq in Ek by auto. injection Ek as <-. simpl in Eq. rewrite set_nth_length in Eq.
              rewrite nth_error_set_nth_neq in Ej by auto. apply S1 in Ej. lia.
           ++ rewrite nth_error_set_nth_neq in Ej, Ek by auto. eapply S2; eauto.
      * f_equal. apply nth_error_ext'. intro j. rewrite <- set_nth_replace, view_nth. simpl.
        destruct (Nat.eq_dec i j) as [<-|Hn].
        -- rewrite !nth_error_set_nth_eq by (unfold view; rewrite ?map_length; auto).
           unfold load; simpl. rewrite app_nth2 by lia. rewrite Nat.sub_diag. destruct b2; reflexivity.
        -- rewrite !nth_error_set_nth_neq by auto. rewrite view_nth.
           destruct (nth_error (w_objs w) j) as [oj|] eqn:Ej; auto. f_equal. unfold load; simpl.
           pose proof (S1 _ _ Ej). rewrite app_nth1 by (rewrite set_nth_length; auto).
           rewrite nth_set_nth_neq; auto. intro C. apply Hn. eapply S2; eauto.
    + split.
      * split; simpl.
        -- intros j o' E. rewrite set_nth_length.
           destruct (Nat.eq_dec i j) as [<-|Hn].
           ++ rewrite nth_error_set_nth_eq in E by auto. injection E as <-. simpl. auto.
           ++ rewrite nth_error_set_nth_neq in E by auto. apply S1 in E. lia.
        -- intros j k oj ok Ej Ek Eq.
           destruct (Nat.eq_dec i j) as [<-|Hj]; destruct (Nat.eq_dec i k) as [<-|Hk]; auto.
           ++ rewrite nth_error_set_nth_eq in Ej by auto. injection Ej as <-. simpl in Eq.
              rewrite nth_error_set_nth_neq in Ek by auto. eapply S2; eauto.
           ++ rewrite nth_error_set_nth_eq in Ek by auto. injection Ek as <-. simpl in Eq.
              rewrite nth_error_set_nth_neq in Ej by auto. eapply S2; eauto.
           ++ rewrite nth_error_set_nth_neq in Ej, Ek by auto. eapply S2; eauto.
      * f_equal. apply nth_error_ext'. intro j. rewrite <- set_nth_replace, view_nth. simpl.
        destruct (Nat.eq_dec i j) as [<-|Hn].
        -- rewrite !nth_error_set_nth_eq by (unfold view; rewrite ?map_length; auto).
           unfold load; simpl. rewrite nth_set_nth_eq by auto.
           pose proof (after_muons_same _ _ _ Er Ea) as Eb. simpl in Eb. rewrite <- Eb. destruct b2; reflexivity.
        -- rewrite !nth_error_set_nth_neq by auto. rewrite view_nth.
           destruct (nth_error (w_objs w) j) as [oj|] eqn:Ej; auto. f_equal. unfold load; simpl.
           rewrite nth_set_nth_neq; auto. intro C. apply Hn. eapply S2; eauto.
Qed.

Lemma wrun_sep ops : forall w, separate w ->
  match wrun ops w with
  | Ok w' => sep_run ops (view w) = Ok (view w')
  | Err e => sep_run ops (view w) = Err e
  end.
Proof.
  unfold wrun, sep_run. induction ops as [|o ops IH]; simpl; intros w S; auto.
  pose proof (wstep_sep w o S) as K. destruct (wstep w o) as [w'|e]; simpl.
  - destruct K as [S' ->]. simpl. apply IH; auto.
  - rewrite K. auto.
Qed.

Lemma wrun_empty ops :
  match wrun ops (@empty_world H) with
  | Ok w' => sep_run ops [] = Ok (view w')
  | Err e => sep_run ops [] = Err e
  end.
Proof.
  apply (wrun_sep ops empty_world). split; simpl.
  - intros [|i]; discriminate.
  - intros [|i]; discriminate.
Qed.
End P.
