(* Lookup of classes, relabelling, mixtures. *)
From Coq Require Import Lia Lra ZArith Sorted Permutation.
From Verif Require Import Base.RUtil Base.XR Base.Res Model.Utils Model.Loss Spec.LossSpec.
Open Scope R_scope.
Open Scope list_scope.

(* ---- distinct values ---- *)
Section U.
Context {A : Type} (ltb : A -> A -> bool) (lt : A -> A -> Prop).
Hypothesis lt_spec : forall a b, ltb a b = true <-> lt a b.
Hypothesis lt_total : forall a b, lt a b \/ a = b \/ lt b a.
Hypothesis lt_trans : forall a b c, lt a b -> lt b c -> lt a c.
Lemma uins_in x l y : In y (uins ltb x l) <-> y = x \/ In y l.
Proof.
  induction l as [|z l IH]; cbn; [intuition|]. destruct (ltb x z) eqn:E1; [cbn; intuition|]. destruct (ltb z x) eqn:E2; cbn; [rewrite IH; intuition|].
  assert (x = z). { destruct (lt_total x z) as [H|[H|H]]; auto; apply lt_spec in H; congruence. } subst. intuition.
Qed.
Lemma unique_in l y : In y (unique ltb l) <-> In y l.
Proof. induction l as [|x l IH]; [reflexivity|]. cbn [unique fold_right]. fold (unique ltb l). rewrite uins_in, IH. cbn. intuition. Qed.
Lemma uins_sorted x l : StronglySorted lt l -> StronglySorted lt (uins ltb x l).
Proof.
  induction 1 as [|z l S IH F]; cbn; [repeat constructor|]. destruct (ltb x z) eqn:E1.
  - apply lt_spec in E1. constructor; [constructor; assumption|]. constructor; [exact E1|]. eapply Forall_impl; [|exact F]. intros y Hy. now apply (lt_trans x z y).
  - destruct (ltb z x) eqn:E2; [|now constructor]. constructor; [exact IH|]. apply Forall_forall. intros y Hy. apply uins_in in Hy as [->|Hy]; [now apply lt_spec|].
    rewrite Forall_forall in F. auto.
Qed.
Lemma unique_sorted l : StronglySorted lt (unique ltb l).
Proof. induction l as [|x l IH]; [constructor|]. cbn. now apply uins_sorted. Qed.
End U.
Lemma Rtot a b : a < b \/ a = b \/ b < a. Proof. destruct (Rtotal_order a b) as [|[|]]; auto. Qed.
Lemma uniqueR_in l y : In y (unique Rltb l) <-> In y l.
Proof. apply (unique_in Rltb Rlt Rltb_true Rtot). Qed.
Lemma uniqueR_sorted l : StronglySorted Rlt (unique Rltb l).
Proof. apply (unique_sorted Rltb Rlt Rltb_true Rtot Rlt_trans). Qed.
Lemma uniqueZ_in l y : In y (unique Z.ltb l) <-> In y l.
Proof. apply (unique_in Z.ltb Z.lt); [intros; apply Z.ltb_lt|intros; lia]. Qed.

(* ---- the nearest key ---- *)
Lemma closer_in i l : forall best, closer i best l = best \/ In (closer i best l) l.
Proof. induction l as [|k l IH]; intros best; cbn; [auto|]. destruct (IH (if Rltb (Rabs (k - i)) (Rabs (best - i)) then k else best)) as [H|H]; [|auto]. rewrite H. destruct (Rltb _ _); auto. Qed.
Lemma closer_min i l : forall best k, k = best \/ In k l -> Rabs (closer i best l - i) <= Rabs (k - i).
Proof.
  induction l as [|z l IH]; intros best k; cbn.
  - intros [->|[]]. lra.
  - intros [->|[->|H]]; destruct (Rltb_spec (Rabs (z - i)) (Rabs (best - i))) as [L|L] || destruct (Rltb_spec (Rabs (k - i)) (Rabs (best - i))) as [L|L].
    all: try (apply IH; auto; fail).
    + eapply Rle_trans; [apply (IH z z); auto|lra].
    + eapply Rle_trans; [apply (IH best best); auto|lra].
Qed.
Lemma dget_in {K V} (eqb : K -> K -> bool) (Heq : forall a b, eqb a b = true <-> a = b) (d : list (K * V)) k v :
  NoDup (map fst d) -> In (k, v) d -> dget eqb d k = Ok v.
Proof.
  induction d as [|[k' v'] d IH]; cbn; [tauto|]. intros N H. inversion N as [|? ? N1 N2]; subst. destruct H as [[= -> ->]|H].
  - now rewrite (proj2 (Heq k k) eq_refl).
  - destruct (eqb k' k) eqn:E; [|auto]. apply Heq in E. subst. exfalso. apply N1. now apply (in_map fst) in H.
Qed.
Lemma dget_some {K V} (eqb : K -> K -> bool) (Heq : forall a b, eqb a b = true <-> a = b) (d : list (K * V)) k v : dget eqb d k = Ok v -> In (k, v) d.
Proof. induction d as [|[k' v'] d IH]; cbn; [discriminate|]. destruct (eqb k' k) eqn:E; [apply Heq in E; intros [= ->]; subst; auto|auto]. Qed.
Lemma dget_none {K V} (eqb : K -> K -> bool) (Heq : forall a b, eqb a b = true <-> a = b) (d : list (K * V)) k : ~ In k (map fst d) <-> dget eqb d k = Err KeyError.
Proof.
  induction d as [|[k' v'] d IH]; cbn; [tauto|]. destruct (eqb k' k) eqn:E; [apply Heq in E; split; [tauto|discriminate]|]. rewrite <- IH.
  split; [tauto|]. intros H [->|H']; [|auto]. assert (eqb k k = true) by now apply Heq. congruence.
Qed.
Lemma class_of_nearest d i : d <> [] -> NoDup (map fst d) -> exists c, class_of d i = Ok c /\ nearest_class d i c.
Proof.
  intros Hd N. destruct d as [|[k0 c0] d]; [congruence|]. unfold class_of. cbn [nearest bind]. set (k := closer i k0 (map fst d)).
  assert (Hk : In k (map fst ((k0, c0) :: d))) by (cbn; destruct (closer_in i (map fst d) k0) as [H|H]; fold k in H; auto).
  apply in_map_iff in Hk as ([k' c] & E & H). cbn in E. subst k'. exists c. split; [apply (dget_in Reqb Reqb_true); assumption|]. exists k. split; [exact H|].
  intros k' c' H'. apply closer_min. cbn in H'. destruct H' as [[= -> ->]|H']; [auto|]. right. apply in_map_iff. exists (k', c'). auto.
Qed.

(* ---- filling arrays value by value ---- *)
Lemma put_map {A B} (eqb : A -> A -> bool) i (v : B) h arr : put_where eqb i v arr (map h arr) = map (fun a => if eqb a i then v else h a) arr.
Proof. unfold put_where. induction arr as [|a arr IH]; [reflexivity|]. cbn [map combine fst snd]. f_equal. exact IH. Qed.
Lemma fill {A B} (eqb : A -> A -> bool) (Heq : forall a b, eqb a b = true <-> a = b) (cl : A -> res B) (f : A -> B) arr : forall us h,
  (forall a, In a us -> cl a = Ok (f a)) ->
  foldM (fun s i => v <- cl i ;; Ok (fst s, put_where eqb i v (fst s) (snd s))) us (arr, map h arr) =
  Ok (arr, map (fun a => if existsb (eqb a) us then f a else h a) arr).
Proof.
  induction us as [|u us IH]; intros h H; [reflexivity|]. cbn [foldM]. rewrite (H u) by (left; reflexivity). cbn [bind fst snd]. rewrite put_map.
  rewrite IH by (intros; apply H; right; assumption). f_equal. f_equal. apply map_ext. intros a. cbn [existsb].
  destruct (eqb a u) eqn:E; cbn [orb]; [|reflexivity]. apply Heq in E. subst. now destruct (existsb _ _).
Qed.
Lemma fill_all {A B} (ltb : A -> A -> bool) (eqb : A -> A -> bool) (Heq : forall a b, eqb a b = true <-> a = b) (Hin : forall l y, In y (unique ltb l) <-> In y l)
    (cl : A -> res B) (f : A -> B) (z : B) arr : (forall a, In a arr -> cl a = Ok (f a)) ->
  foldM (fun s i => v <- cl i ;; Ok (fst s, put_where eqb i v (fst s) (snd s))) (unique ltb arr) (arr, repeat z (length arr)) = Ok (arr, map f arr).
Proof.
  intros H. replace (repeat z (length arr)) with (map (fun _ => z) arr) by (clear; induction arr; cbn; congruence).
  rewrite (fill eqb Heq cl f) by (intros a Ha; apply H, Hin, Ha). do 2 f_equal. apply map_ext_in. intros a Ha.
  replace (existsb (eqb a) (unique ltb arr)) with true; [reflexivity|]. symmetry. apply existsb_exists. exists a. split; [now apply Hin|now apply Heq].
Qed.
Lemma fill_err {A B} (eqb : A -> A -> bool) (cl : A -> res B) e : (forall a, (exists b, cl a = Ok b) \/ cl a = Err e) ->
  forall us u s, In u us -> cl u = Err e -> foldM (fun s i => v <- cl i ;; Ok (fst s, put_where eqb i v (fst s) (snd s))) us s = Err e.
Proof.
  intros Hc. induction us as [|w us IH]; intros u s H Hu; [destruct H|]. cbn [foldM]. destruct (Hc w) as [[b Hb]|Hb].
  - rewrite Hb. cbn [bind]. destruct H as [->|H]; [congruence|]. eapply IH; eauto.
  - now rewrite Hb.
Qed.
(* relabelling in place *)
Lemma relabel_step d (f : R -> Z) vals : (forall x, In x vals -> class_of d x = Ok (f x)) ->
  (forall x y, In x vals -> In y vals -> IZR (f x) = y -> y <= x) ->
  forall us g, StronglySorted Rlt us -> (forall u, In u us -> In u vals) ->
  (forall x, In x vals -> (In x us /\ g x = x) \/ (~ In x us /\ (forall u, In u us -> x < u) /\ g x = IZR (f x)) ) ->
  foldM (fun v x0 => c <- class_of d x0 ;; Ok (put_where Reqb x0 (IZR c) v v)) us (map g vals) = Ok (map (fun x => IZR (f x)) vals).
Proof.
  intros Hf Hc. induction us as [|u us IH]; intros g S Hu Hg.
  - cbn. f_equal. apply map_ext_in. intros x Hx. destruct (Hg x Hx) as [[[] _]|(_ & _ & E)]. exact E.
  - cbn [foldM]. rewrite (Hf u) by (apply Hu; left; reflexivity). cbn [bind]. inversion S as [|? ? S1 F]; subst. rewrite Forall_forall in F.
    assert (Ep : put_where Reqb u (IZR (f u)) (map g vals) (map g vals) = map (fun x => if Reqb (g x) u then IZR (f u) else g x) vals).
    { unfold put_where. clear. induction vals as [|x l IH]; [reflexivity|]. cbn [map combine fst snd]. f_equal. exact IH. }
    rewrite Ep. apply IH; [assumption|intros; apply Hu; right; assumption|]. intros x Hx. destruct (Reqb_spec (g x) u) as [E|E].
    + destruct (Hg x Hx) as [[H1 H2]|(H1 & H2 & H3)].
      * right. rewrite H2 in E. subst u. split; [|split; [exact F|reflexivity]]. intros Hn. specialize (F x Hn). lra.
      * exfalso. pose proof (Hc x u Hx (Hu u (or_introl eq_refl)) ltac:(congruence)). specialize (H2 u (or_introl eq_refl)). lra.
    + destruct (Hg x Hx) as [[[->|H1] H2]|(H1 & H2 & H3)].
      * congruence.
      * left. auto.
      * right. split; [intros Hn; apply H1; right; exact Hn|]. split; [intros w Hw; apply H2; right; exact Hw|exact H3].
Qed.
Lemma long_int z : to_long (IZR z) = z.
Proof.
  unfold to_long. destruct (Rltb_spec (IZR z) 0) as [H|H].
  - rewrite <- opp_IZR. rewrite (Rfloor_unique (IZR (- z)) (- z)) by lra. lia.
  - apply Rfloor_unique. lra.
Qed.
