(* The memo fields of an inferrer. *)
From Coq Require Import Lia.
From Verif Require Import Model.X0Infer Spec.InferSpec Proofs.MuonConserve Proofs.PanelP.
Open Scope list_scope.

Lemma mask_mul_len m o r : mask_mul m o = Ok r -> List.length r = List.length m /\ List.length o = List.length m.
Proof. unfold mask_mul. destruct (Nat.eqb_spec (List.length m) (List.length o)); [|discriminate]. intros [= <-]. rewrite map2_length. lia. Qed.
Definition mstep (m : list bool) (vu : tensor2 * tensor2) : res (list bool) :=
  let (v, u) := vu in
  m <- mask_mul m (not_any xisnan v) ;; m <- mask_mul m (not_any xisinf v) ;;
  m <- mask_mul m (not_any xisnan u) ;; mask_mul m (not_any xisinf u).
Lemma mstep_len m v u r : mstep m (v, u) = Ok r -> List.length r = List.length m /\ List.length v = List.length m /\ List.length u = List.length m.
Proof.
  unfold mstep. intro E. inv_bind E. apply mask_mul_len in Hx as [A1 A2]. apply mask_mul_len in Hx0 as [B1 B2]. apply mask_mul_len in Hx1 as [C1 C2].
  apply mask_mul_len in E as [D1 D2]. unfold not_any in *. rewrite map_length in *. lia.
Qed.
Lemma mask_lens l : forall m r, foldM mstep l m = Ok r ->
  List.length r = List.length m /\ Forall (fun vu => List.length (fst vu) = List.length m /\ List.length (snd vu) = List.length m) l.
Proof.
  induction l as [|[v u] l IH]; intros m r E; cbn [foldM] in E; [injection E as <-; auto|]. inv_bind E.
  apply mstep_len in Hx as (A & B & C). destruct (IH _ _ E) as [D F]. split; [lia|]. constructor; [auto|]. rewrite A in F. exact F.
Qed.
Lemma mask_ok bs m : valid_mask bs = Ok m -> List.length m = List.length (flat_map s_poca bs)
  /\ Forall (fun t => List.length t = List.length m) (values_of bs) /\ Forall (fun t => List.length t = List.length m) (uncs_of bs).
Proof.
  unfold valid_mask. change (foldM _ ?l ?m) with (foldM mstep l m). intro E. apply mask_lens in E as [L F]. rewrite map_length in *. split; auto. rewrite L.
  unfold values_of, uncs_of in *. cbn [combine] in F.
  repeat match goal with H : Forall _ (_ :: _) |- _ => inversion H as [|? ? [? ?] ?]; subst; clear H end. cbn [fst snd] in *. split; repeat constructor; auto.
Qed.
Lemma index_all {A} m (l : list (list A)) : Forall (fun t => List.length t = List.length m) l -> mapM (bool_index m) l = Ok (map (select m) l).
Proof. induction 1 as [|t l E _ IH]; [reflexivity|]. cbn [mapM]. rewrite bool_index_ok by auto. cbn [bind]. rewrite IH. reflexivity. Qed.

Section S.
Variables (g : grid) (cdf : R -> R -> R -> R) (eff_of : sview -> res (list xr)) (pred_unc : list xr -> tensor2 -> tensor2 -> list xr).
Definition eff_good (bs : list (res sview)) : Prop := forall v, In (Ok v) bs -> exists es, eff_of v = Ok es /\ List.length es = List.length (s_poca v).

Definition combined (bs : list (res sview)) : res (tensor2 * tensor2 * list xr * nat) :=
  match bs with
  | [] => Err ValueError
  | _ => vs <- mapM (fun b => b) bs ;; m <- valid_mask vs ;; es <- mapM eff_of vs ;;
         Ok (hcat (map (select m) (values_of vs)), hcat (map (select m) (uncs_of vs)), select m (concat es), List.length (hcat (map (select m) (values_of vs))))
  end.
Definition pprobs (c : tensor2 * tensor2 * list xr * nat) : res (list (list xr)) :=
  let '(V, U, E, N) := c in
  p <- mapM (fun vu => muon_probs cdf g (fst vu) (snd vu)) (combine V U) ;; if shape_ok g N (List.length p) then Ok p else Err RuntimeError.
Definition ppreds (c : tensor2 * tensor2 * list xr * nat) (P : list (list xr)) : res (list xr) :=
  let '(V, U, E, N) := c in if Nat.eqb (List.length E) N then voxel_preds g V U E P else Err RuntimeError.

Definition st (bs : list (res sview)) (c : tensor2 * tensor2 * list xr * nat) P X u : inf :=
  let '(V, U, E, N) := c in Inf bs (Some N) (Some V) (Some U) P (Some E) X u.
Inductive coherent (bs : list (res sview)) : inf -> Prop :=
| coh0 : coherent bs (given bs)
| coh1 c : combined bs = Ok c -> coherent bs (st bs c None None None)
| coh2 c P : combined bs = Ok c -> pprobs c = Ok P -> coherent bs (st bs c (Some P) None None)
| coh3 c P X : combined bs = Ok c -> pprobs c = Ok P -> ppreds c P = Ok X -> coherent bs (st bs c (Some P) (Some X) None)
| coh4 c P X : combined bs = Ok c -> pprobs c = Ok P -> ppreds c P = Ok X ->
    coherent bs (st bs c (Some P) (Some X) (Some (pred_unc X (fst (fst (fst c))) (snd (fst (fst c)))))).

Lemma effs_good vs : eff_good (map Ok vs) -> exists es, mapM eff_of vs = Ok es /\ List.length (concat es) = List.length (flat_map s_poca vs).
Proof.
  induction vs as [|v vs IH]; intro H; [exists []; auto|]. destruct (H v (or_introl eq_refl)) as (e & E & L).
  destruct IH as (es & Es & Ls); [intros w I; apply H; right; auto|]. exists (e :: es). cbn [mapM]. rewrite E. cbn [bind]. rewrite Es. split; [reflexivity|].
  simpl. rewrite !app_length. lia.
Qed.
Lemma read_batches bs vs : mapM (fun b : res sview => b) bs = Ok vs -> bs = map Ok vs.
Proof. revert vs. induction bs as [|b bs IH]; intros vs E; cbn [mapM] in E; [injection E as <-; auto|]. inv_bind E. injection E as <-. simpl. f_equal; auto. Qed.

Lemma combine_run bs : eff_good bs -> combine_scatters eff_of (given bs) = match combined bs with Ok c => (Ok tt, st bs c None None None) | Err e => (Err e, given bs) end.
Proof.
  intro G. unfold combine_scatters, combined, seqA at 1, field. cbn [i_batches given]. destruct bs as [|b0 bs0]; [reflexivity|].
  remember (b0 :: bs0) as bs eqn:Eb. clear Eb. unfold seqA at 1, lift at 1.
  destruct (mapM (fun b : res sview => b) bs) as [vs|e] eqn:Ev; [|reflexivity]. cbn [bind]. apply read_batches in Ev. subst bs.
  unfold seqA at 1, lift at 1. destruct (valid_mask vs) as [m|e] eqn:Em; [|reflexivity]. cbn [bind]. apply mask_ok in Em as (L & Fv & Fu).
  destruct (effs_good vs G) as (es & Es & Le). rewrite Es. cbn [bind].
  unfold seqA at 1, lift at 1. rewrite index_all by auto. unfold seqA at 1, upd at 1. unfold seqA at 1, lift at 1. rewrite index_all by auto.
  unfold seqA at 1, upd at 1. unfold seqA at 1, lift at 1. unfold seqA at 1, lift at 1. rewrite bool_index_ok by lia. reflexivity.
Qed.

Definition known (bs : list (res sview)) (r : iread) : res ians :=
  match r with
  | RN => c <- combined bs ;; Ok (AN (snd c))
  | RVars => c <- combined bs ;; Ok (AMat (fst (fst (fst c))))
  | RUncs => c <- combined bs ;; Ok (AMat (snd (fst (fst c))))
  | REff => c <- combined bs ;; Ok (AVec (snd (fst c)))
  | RProbs => c <- combined bs ;; P <- pprobs c ;; Ok (AMat P)
  | RPreds => c <- combined bs ;; P <- pprobs c ;; X <- ppreds c P ;; Ok (AVec X)
  | RPredUncs => c <- combined bs ;; P <- pprobs c ;; X <- ppreds c P ;; Ok (AVec (pred_unc X (fst (fst (fst c))) (snd (fst (fst c)))))
  | RPrediction => match bs with [] => Ok ANone | _ => c <- combined bs ;; P <- pprobs c ;; X <- ppreds c P ;; Ok (AVec X) end
  end.

(* each getter keeps the fields coherent and answers from the batches *)
Definition answers {A} (bs : list (res sview)) (m : act A) (r : res A) : Prop := forall s, coherent bs s -> fst (m s) = r /\ coherent bs (snd (m s)).
Lemma answers_bind {A B} bs (m : act A) (f : A -> act B) r q :
  answers bs m r -> (forall a, r = Ok a -> answers bs (f a) (q a)) -> answers bs (seqA m f) (bind r q).
Proof.
  intros M F s C. destruct (M s C) as [E C']. unfold seqA. destruct (m s) as [[a|e] s']; cbn [fst snd] in *; subst r; cbn [bind]; [|auto].
  apply F; auto.
Qed.
Lemma answers_ret {A} bs (a : A) : answers bs (ret a) (Ok a). Proof. intros s C. auto. Qed.
Lemma answers_lift {A} bs (r : res A) : answers bs (lift r) r. Proof. intros s C. auto. Qed.

(* a state that is combined, or will be *)
Inductive combined_st bs c : inf -> Prop := cst P X u : coherent bs (st bs c P X u) -> combined_st bs c (st bs c P X u).
Lemma coh_cases bs s : coherent bs s -> s = given bs \/ exists c P X u, s = st bs c P X u /\ combined bs = Ok c.
Proof. intros [|c E|c P E Ep|c P X E Ep Ex|c P X E Ep Ex]; [left; auto|..]; right; exists c; eauto 8. Qed.
Lemma ensure_run bs s : eff_good bs -> coherent bs s ->
  match combined bs with Ok c => fst (ensure_combined eff_of s) = Ok tt /\ combined_st bs c (snd (ensure_combined eff_of s)) /\ coherent bs (snd (ensure_combined eff_of s))
                       | Err e => fst (ensure_combined eff_of s) = Err e /\ coherent bs (snd (ensure_combined eff_of s)) end.
Proof.
  intros G C. destruct (coh_cases bs s C) as [->|(c & P & X & u & -> & E)].
  - unfold ensure_combined, seqA, field. cbn [i_vars i_uncs given]. rewrite combine_run by auto. destruct (combined bs) as [c|e] eqn:E; cbn [fst snd].
    + pose proof (coh1 bs c E). repeat split; auto.
    + split; auto.
  - rewrite E. assert (ensure_combined eff_of (st bs c P X u) = (Ok tt, st bs c P X u)) as -> by (destruct c as [[[V U] Ef] N]; reflexivity).
    cbn [fst snd]. repeat split; auto.
Qed.
Lemma field_answers {A} bs (f : inf -> A) h : eff_good bs -> (forall c P X u, f (st bs c P X u) = h c) ->
  answers bs (seqA (ensure_combined eff_of) (fun _ => field f)) (c <- combined bs ;; Ok (h c)).
Proof.
  intros G F s C. pose proof (ensure_run bs s G C) as R. unfold seqA, field. destruct (ensure_combined eff_of s) as [[[]|e] s']; cbn [fst snd] in *;
  destruct (combined bs) as [c|e'].
  - destruct R as (_ & [P X u] & C'). cbn [bind]. rewrite F. auto.
  - destruct R as [R _]. discriminate.
  - destruct R as [R _]. discriminate.
  - destruct R as [[= ->] C']. auto.
Qed.
Lemma need_answers {A B} bs (m : act (option A)) (o : res B) (h : B -> A) e : answers bs m (c <- o ;; Ok (Some (h c))) ->
  answers bs (seqA m (fun x => need x e)) (c <- o ;; Ok (h c)).
Proof.
  intros M s C. destruct (M s C) as [E C']. unfold seqA. destruct (m s) as [[a|e'] s']; cbn [fst snd] in *; destruct o as [c|eo]; cbn [bind] in *; try discriminate; injection E as ->; auto.
Qed.
Lemma n_answers bs : eff_good bs -> answers bs (get_n eff_of) (c <- combined bs ;; Ok (Some (snd c))).
Proof. intro G. apply field_answers; auto. intros [[[V U] E] N] *. reflexivity. Qed.
Lemma eff_answers bs : eff_good bs -> answers bs (get_eff eff_of) (c <- combined bs ;; Ok (Some (snd (fst c)))).
Proof. intro G. apply field_answers; auto. intros [[[V U] E] N] *. reflexivity. Qed.
Lemma vars_answers bs : eff_good bs -> answers bs (get_vars eff_of) (c <- combined bs ;; Ok (fst (fst (fst c)))).
Proof.
  intros G s C. pose proof (need_answers bs _ _ _ TypeErr (field_answers bs i_vars (fun c => Some (fst (fst (fst c)))) G ltac:(intros [[[V U] E] N] *; reflexivity)) s C) as H.
  unfold get_vars, seqA in *. destruct (ensure_combined eff_of s) as [[[]|e] s']; auto.
Qed.
Lemma uncs_answers bs : eff_good bs -> answers bs (get_uncs eff_of) (c <- combined bs ;; Ok (snd (fst (fst c)))).
Proof.
  intros G s C. pose proof (need_answers bs _ _ _ TypeErr (field_answers bs i_uncs (fun c => Some (snd (fst (fst c)))) G ltac:(intros [[[V U] E] N] *; reflexivity)) s C) as H.
  unfold get_uncs, seqA in *. destruct (ensure_combined eff_of s) as [[[]|e] s']; auto.
Qed.

Lemma answers_field bs : answers bs (field i_batches) (Ok bs).
Proof. intros s C. unfold field. cbn [fst snd]. split; auto. f_equal. destruct (coh_cases bs s C) as [->|([[[V U] Ef] N] & P & X & u & -> & E)]; reflexivity. Qed.

Lemma ensure_given bs : eff_good bs -> ensure_combined eff_of (given bs) = match combined bs with Ok c => (Ok tt, st bs c None None None) | Err e => (Err e, given bs) end.
Proof. intro G. unfold ensure_combined, seqA, field. cbn [i_vars i_uncs given]. apply combine_run, G. Qed.

Lemma probs_st bs c X u : get_probs g cdf eff_of (st bs c None X u) = match pprobs c with Ok P => (Ok P, st bs c (Some P) X u) | Err e => (Err e, st bs c None X u) end.
Proof.
  destruct c as [[[V U] Ef] N]. unfold get_probs, get_vars, get_uncs, get_n, pprobs, ensure_combined, seqA, field, lift, need, upd, ret, raise.
  cbn [i_vars i_uncs i_probs i_n st]. destruct (mapM _ (combine V U)) as [p|e]; cbn [bind]; [|reflexivity].
  destruct (shape_ok g N (List.length p)); reflexivity.
Qed.
Lemma probs_st' bs c P X u : get_probs g cdf eff_of (st bs c (Some P) X u) = (Ok P, st bs c (Some P) X u).
Proof. destruct c as [[[V U] Ef] N]. reflexivity. Qed.
Lemma probs_given bs : eff_good bs -> get_probs g cdf eff_of (given bs) = match combined bs with Ok c => get_probs g cdf eff_of (st bs c None None None) | Err e => (Err e, given bs) end.
Proof.
  intro G. assert (get_vars eff_of (given bs) = match combined bs with Ok c => get_vars eff_of (st bs c None None None) | Err e => (Err e, given bs) end) as E.
  { unfold get_vars, seqA. rewrite ensure_given by auto. destruct (combined bs) as [[[[V U] Ef] N]|e]; reflexivity. }
  unfold get_probs at 1, seqA at 1, field at 1. cbn [i_probs given]. unfold seqA at 1. rewrite E. destruct (combined bs) as [[[[V U] Ef] N]|e]; reflexivity.
Qed.
Lemma probs_answers bs : eff_good bs -> answers bs (get_probs g cdf eff_of) (c <- combined bs ;; pprobs c).
Proof.
  intros G s [|c E|c P E Ep|c P X E Ep Ex|c P X E Ep Ex]; [rewrite probs_given by auto; destruct (combined bs) as [c|e] eqn:E; cbn [bind]; [|split; [auto|constructor]]|rewrite E; cbn [bind]..].
  1,2: rewrite probs_st; destruct (pprobs c) as [P|e] eqn:Ep; cbn [fst snd]; split; auto; econstructor; eauto.
  all: rewrite Ep, probs_st'; cbn [fst snd]; split; auto; econstructor; eauto.
Qed.
Lemma preds_st bs c P u : combined bs = Ok c -> (P = None \/ exists p, P = Some p /\ pprobs c = Ok p) ->
  get_preds g cdf eff_of (st bs c P None u) = match pprobs c with
    | Ok p => match ppreds c p with Ok X => (Ok X, st bs c (Some p) (Some X) None) | Err e => (Err e, st bs c (Some p) None u) end
    | Err e => (Err e, st bs c None None u) end.
Proof.
  intros E HP. assert (get_probs g cdf eff_of (st bs c P None u) = match pprobs c with Ok p => (Ok p, st bs c (Some p) None u) | Err e => (Err e, st bs c None None u) end) as Q.
  { destruct HP as [->|(p & -> & Ep)]; [apply probs_st|]. rewrite Ep. apply probs_st'. }
  destruct c as [[[V U] Ef] N].
  assert (get_preds g cdf eff_of (st bs (V, U, Ef, N) P None u) =
     seqA (get_probs g cdf eff_of) (fun probs => seqA (get_vars eff_of) (fun vars => seqA (get_uncs eff_of) (fun uncs =>
      if Nat.eqb (List.length Ef) N then seqA (lift (voxel_preds g vars uncs Ef probs)) (fun p => seqA (upd (set_preds p)) (fun _ => ret p)) else raise RuntimeError)))
      (st bs (V, U, Ef, N) P None u)) as -> by reflexivity.
  unfold seqA at 1. rewrite Q. destruct (pprobs (V, U, Ef, N)) as [p|e]; [|reflexivity].
  unfold ppreds, get_vars, get_uncs, ensure_combined, seqA, field, lift, need, upd, ret, raise. cbn [i_vars i_uncs st].
  destruct (Nat.eqb (List.length Ef) N); [|reflexivity]. destruct (voxel_preds g V U Ef p); reflexivity.
Qed.
Lemma preds_st' bs c P X u : get_preds g cdf eff_of (st bs c P (Some X) u) = (Ok X, st bs c P (Some X) u).
Proof. destruct c as [[[V U] Ef] N]. reflexivity. Qed.
Lemma preds_given bs : eff_good bs -> get_preds g cdf eff_of (given bs) = match combined bs with Ok c => get_preds g cdf eff_of (st bs c None None None) | Err e => (Err e, given bs) end.
Proof.
  intro G. assert (get_eff eff_of (given bs) = match combined bs with Ok c => get_eff eff_of (st bs c None None None) | Err e => (Err e, given bs) end) as E.
  { unfold get_eff, seqA. rewrite ensure_given by auto. destruct (combined bs) as [[[[V U] Ef] N]|e]; reflexivity. }
  unfold get_preds at 1, seqA at 1, field at 1. cbn [i_preds given]. unfold seqA at 1. rewrite E. destruct (combined bs) as [[[[V U] Ef] N]|e]; reflexivity.
Qed.
Lemma preds_answers bs : eff_good bs -> answers bs (get_preds g cdf eff_of) (c <- combined bs ;; P <- pprobs c ;; ppreds c P).
Proof.
  intros G s [|c E|c P E Ep|c P X E Ep Ex|c P X E Ep Ex]; [rewrite preds_given by auto; destruct (combined bs) as [c|e] eqn:E; cbn [bind]; [|split; [auto|constructor]]|rewrite E; cbn [bind]..].
  1,2: rewrite preds_st by auto; destruct (pprobs c) as [P|e] eqn:Ep; cbn [bind]; [destruct (ppreds c P) as [X|e] eqn:Ex|]; cbn [fst snd]; split; auto; econstructor; eauto.
  - rewrite preds_st by eauto. rewrite Ep. cbn [bind]. destruct (ppreds c P) as [X|e] eqn:Ex; cbn [fst snd]; split; auto; econstructor; eauto.
  - rewrite preds_st', Ep. cbn [bind fst snd]. split; auto. econstructor; eauto.
  - rewrite preds_st', Ep. cbn [bind fst snd]. split; auto. econstructor; eauto.
Qed.
(* after the predictions are known *)
Lemma uncs_of_preds bs : eff_good bs -> answers bs (get_pred_uncs g cdf eff_of pred_unc)
  (c <- combined bs ;; P <- pprobs c ;; X <- ppreds c P ;; Ok (pred_unc X (fst (fst (fst c))) (snd (fst (fst c))))).
Proof.
  intros G s C.
  assert (i_pred_uncs s = None \/ exists c P X, combined bs = Ok c /\ pprobs c = Ok P /\ ppreds c P = Ok X /\ s = st bs c (Some P) (Some X) (Some (pred_unc X (fst (fst (fst c))) (snd (fst (fst c)))))) as D.
  { destruct C as [|c E|c P E Ep|c P X E Ep Ex|c P X E Ep Ex]; try (left; destruct c as [[[V U] Ef] N]; reflexivity); [left; reflexivity|]. right. exists c, P, X. auto. }
  destruct D as [N|(c & P & X & E & Ep & Ex & ->)].
  - pose proof (preds_answers bs G s C) as [H H'].
    assert (get_pred_uncs g cdf eff_of pred_unc s = seqA (get_preds g cdf eff_of) (fun p => seqA (field i_vars) (fun vars => seqA (need vars TypeErr) (fun vars =>
      seqA (field i_uncs) (fun uncs => seqA (need uncs TypeErr) (fun uncs => seqA (upd (set_pred_uncs (pred_unc p vars uncs))) (fun _ => ret (pred_unc p vars uncs))))))) s) as ->.
    { unfold get_pred_uncs, seqA at 1, field at 1. rewrite N. reflexivity. }
    unfold seqA at 1 7. destruct (get_preds g cdf eff_of s) as [[X|e] s'] eqn:Es; cbn [fst snd] in *.
    + destruct (combined bs) as [c|] eqn:E; [|discriminate]. cbn [bind] in *. destruct (pprobs c) as [P|] eqn:Ep; [|discriminate]. cbn [bind] in *. rewrite <- H. cbn [bind].
      assert (exists u, s' = st bs c (Some P) (Some X) u) as [u ->].
      { destruct C as [|c' E'|c' P' E' Ep'|c' P' X' E' Ep' Ex'|c' P' X' E' Ep' Ex'].
        - rewrite preds_given, E, preds_st, Ep, <- H in Es by auto. injection Es as <-. eauto.
        - assert (c' = c) as -> by congruence. rewrite preds_st, Ep, <- H in Es by auto. injection Es as <-. eauto.
        - assert (c' = c) as -> by congruence. rewrite preds_st, Ep, <- H in Es by eauto. injection Es as <-. eauto.
        - assert (c' = c) as -> by congruence. assert (P' = P) as -> by congruence. rewrite preds_st' in Es. injection Es as <- <-. eauto.
        - assert (c' = c) as -> by congruence. assert (P' = P) as -> by congruence. rewrite preds_st' in Es. injection Es as <- <-. eauto. }
      assert (coherent bs (st bs c (Some P) (Some X) (Some (pred_unc X (fst (fst (fst c))) (snd (fst (fst c))))))) as K by (constructor; auto).
      destruct c as [[[V U] Ef] n]. exact (conj eq_refl K).
    + split; auto. destruct (combined bs) as [c|]; cbn [bind] in *; [|congruence]. destruct (pprobs c) as [P|]; cbn [bind] in *; [|congruence]. rewrite <- H. reflexivity.
  - rewrite E. cbn [bind]. rewrite Ep. cbn [bind]. rewrite Ex. cbn [bind].
    assert (coherent bs (st bs c (Some P) (Some X) (Some (pred_unc X (fst (fst (fst c))) (snd (fst (fst c))))))) as K by (constructor; auto).
    destruct c as [[[V U] Ef] n]. exact (conj eq_refl K).
Qed.

Lemma answers_map {A B} bs (m : act A) r (h : A -> B) q : answers bs m r -> rmap h r = q -> answers bs (seqA m (fun x => ret (h x))) q.
Proof. intros M E s C. destruct (M s C) as [F C']. unfold seqA. destruct (m s) as [[a|e] s']; cbn [fst snd ret] in *; subst; auto. Qed.
Lemma ask_answers bs r : eff_good bs -> answers bs (ask g cdf eff_of pred_unc r) (known bs r).
Proof.
  intro G. destruct r; cbn [ask known].
  - eapply (answers_map bs _ _ (fun n => match n with Some n => AN n | None => ANone end)); [apply n_answers, G|]. destruct (combined bs); reflexivity.
  - eapply answers_map; [apply vars_answers, G|]. destruct (combined bs); reflexivity.
  - eapply answers_map; [apply uncs_answers, G|]. destruct (combined bs); reflexivity.
  - eapply (answers_map bs _ _ (fun n => match n with Some n => AVec n | None => ANone end)); [apply eff_answers, G|]. destruct (combined bs); reflexivity.
  - eapply answers_map; [apply probs_answers, G|]. destruct (combined bs) as [c|]; [|reflexivity]. cbn [bind]. destruct (pprobs c); reflexivity.
  - eapply answers_map; [apply preds_answers, G|]. destruct (combined bs) as [c|]; [|reflexivity]. cbn [bind]. destruct (pprobs c) as [P|]; [|reflexivity]. cbn [bind]. destruct (ppreds c P); reflexivity.
  - eapply answers_map; [apply uncs_of_preds, G|]. destruct (combined bs) as [c|]; [|reflexivity]. cbn [bind]. destruct (pprobs c) as [P|]; [|reflexivity]. cbn [bind]. destruct (ppreds c P); reflexivity.
  - eapply (answers_map bs _ (match bs with [] => Ok None | _ => c <- combined bs ;; P <- pprobs c ;; X <- ppreds c P ;; Ok (Some X) end) (fun t => match t with Some p => AVec p | None => ANone end)).
    + unfold get_prediction. change (match bs with [] => Ok None | _ => c <- combined bs ;; P <- pprobs c ;; X <- ppreds c P ;; Ok (Some X) end)
        with (bind (Ok bs) (fun bs' => match bs' with [] => Ok None | _ => c <- combined bs ;; P <- pprobs c ;; X <- ppreds c P ;; Ok (Some X) end)).
      apply answers_bind; [apply answers_field|]. intros bs' [= <-]. destruct bs as [|b0 bs0]; [apply answers_ret|].
      eapply answers_map; [apply preds_answers, G|]. destruct (combined (b0 :: bs0)) as [c|]; [|reflexivity]. cbn [bind]. destruct (pprobs c) as [P|]; [|reflexivity]. cbn [bind]. destruct (ppreds c P); reflexivity.
    + destruct bs as [|b0 bs0]; [reflexivity|]. destruct (combined (b0 :: bs0)) as [c|]; [|reflexivity]. cbn [bind]. destruct (pprobs c) as [P|]; [|reflexivity]. cbn [bind]. destruct (ppreds c P); reflexivity.
Qed.

Lemma interact_known ops : forall bs s, coherent bs s -> eff_good bs -> (forall v, In (Add (Ok v)) ops -> exists es, eff_of v = Ok es /\ List.length es = List.length (s_poca v)) ->
  interact g cdf eff_of pred_unc ops s = map (fun q => known (fst q) (snd q)) (questions ops bs)
  /\ Forall (fun q => eff_good (fst q)) (questions ops bs).
Proof.
  induction ops as [|[v|r] ops IH]; intros bs s C G T; cbn [interact questions map]; auto.
  - assert (add_scatters v s = given (bs ++ [v])) as ->.
    { unfold add_scatters, given. destruct (coh_cases bs s C) as [->|([[[V U] Ef] N] & P & X & u & -> & E)]; reflexivity. }
    apply IH; [constructor| |intros; apply T; right; auto]. intros w I. apply in_app_or in I as [I|[->|[]]]; [apply G, I|apply T; left; auto].
  - pose proof (ask_answers bs r G s C) as [E C']. destruct (ask g cdf eff_of pred_unc r s) as [a s']. cbn [fst snd] in *. subst a.
    destruct (IH bs s' C' G) as [-> F]; [intros; apply T; right; auto|]. auto.
Qed.
Lemma reads_fresh ops : eff_total eff_of ops ->
  interact g cdf eff_of pred_unc ops new_inf = map (fun q => fst (ask g cdf eff_of pred_unc (snd q) (given (fst q)))) (questions ops []).
Proof.
  intro T. destruct (interact_known ops [] new_inf) as [-> F]; [exact (coh0 [])|intros v []|exact T|].
  apply map_ext_in. intros [bs r] I. rewrite Forall_forall in F. specialize (F _ I). cbn [fst snd] in *. symmetry. apply ask_answers; [auto|constructor].
Qed.
End S.
