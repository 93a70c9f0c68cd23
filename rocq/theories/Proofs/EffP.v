(* Efficiency of a muon. *)
From Coq Require Import Psatz Lia.
From Verif Require Import Model.X0Infer Spec.InferSpec.
Open Scope R_scope.
Open Scope list_scope.

(* the lists with one element left out, the first one first *)
Fixpoint drops {A} (l : list A) : list (list A) :=
  match l with [] => [] | a :: l => l :: map (cons a) (drops l) end.
Lemma comb_full {A} (l : list A) : combinations (List.length l) l = [l].
Proof.
  assert (forall (l : list A) r, (List.length l < r)%nat -> combinations r l = []) as Z.
  { induction l0 as [|a l0 IH]; intros [|r] H; simpl in *; try lia; auto. rewrite !IH by lia. reflexivity. }
  induction l as [|a l IH]; [reflexivity|]. simpl. rewrite IH, Z by (simpl; lia). reflexivity.
Qed.
Lemma comb_drops {A} (l : list A) : l <> [] -> rev (combinations (List.length l - 1) l) = drops l.
Proof.
  induction l as [|a l IH]; [congruence|]. intros _. destruct l as [|b l]; [reflexivity|].
  replace (List.length (a :: b :: l) - 1)%nat with (S (List.length (b :: l) - 1)) by (simpl; lia).
  set (r := (List.length (b :: l) - 1)%nat) in *.
  change (combinations (S r) (a :: b :: l)) with (map (cons a) (combinations r (b :: l)) ++ combinations (S r) (b :: l)).
  rewrite rev_app_distr, <- map_rev, IH by discriminate.
  replace (S r) with (List.length (b :: l)) by (subst r; simpl; lia). rewrite comb_full. reflexivity.
Qed.
Lemma drops_map {A B} (f : A -> B) l : map (map f) (drops l) = drops (map f l).
Proof. induction l as [|a l IH]; simpl; [auto|]. rewrite <- IH, !map_map. reflexivity. Qed.
Lemma seq_nth_all {A} (d : A) l : map (fun j => nth j l d) (seq 0 (List.length l)) = l.
Proof. induction l as [|a l IH]; simpl; [auto|]. rewrite <- seq_shift, map_map. f_equal. exact IH. Qed.
Lemma map2_map_r' {A B B' C} (f : A -> B' -> C) (g : B -> B') l l' : map2 (fun a b => f a (g b)) l l' = map2 f l (map g l').
Proof. revert l'. induction l as [|a l IH]; destruct l'; simpl; auto. f_equal. auto. Qed.
Lemma xprod_fin l : xprod (map Fin l) = Fin (Rprod l).
Proof. induction l as [|a l IH]; simpl; [auto|]. fold (xprod (map Fin l)). rewrite IH. reflexivity. Qed.
Lemma xsum_fin l : xsum (map Fin l) = Fin (Rsum l).
Proof. induction l as [|a l IH]; simpl; [auto|]. fold (xsum (map Fin l)). rewrite IH. reflexivity. Qed.
Lemma map2_fin l ls : map2 (fun e js => xmul e (xprod js)) (map Fin l) (map (map Fin) ls) = map Fin (map2 (fun e js => e * Rprod js) l ls).
Proof. revert ls. induction l as [|a l IH]; destruct ls; simpl; auto. rewrite xprod_fin, IH. reflexivity. Qed.

Definition none (l : list R) : R := Rprod (map (fun e => 1 - e) l).
Definition one (l : list R) : R := Rsum (map2 (fun e js => e * Rprod js) l (drops (map (fun e => 1 - e) l))).
Lemma one_cons e l : one (e :: l) = e * none l + (1 - e) * one l.
Proof.
  unfold one, none. cbn [map drops map2 Rsum]. f_equal. rewrite <- map2_map_r'. cbn [Rprod].
  generalize (drops (map (fun e0 => 1 - e0) l)). intro ls. revert ls. induction l as [|a l IH]; destruct ls; simpl; try lra. rewrite IH. lra.
Qed.
Lemma side_eff_fin l : (2 <= List.length l)%nat -> side_eff (map Fin l) = Ok (Fin (1 - one l - none l)).
Proof.
  intro H. assert (side_eff (map Fin l) = let effs := map Fin l in
      let p_miss := map (xsub (Fin 1)) effs in
      let c := rev (combinations (List.length effs - 1) (seq 0 (List.length effs))) in
      let p_one_hit := xsum (map2 (fun e js => xmul e (xprod (map (fun j => nth j p_miss NaN) js))) effs c) in
      let p_no_hit := xprod p_miss in
      Ok (xsub (xsub (Fin 1) p_one_hit) p_no_hit)) as ->.
  { destruct l as [|a [|b l]]; simpl in H; try lia. reflexivity. }
  cbv zeta. assert (map (xsub (Fin 1)) (map Fin l) = map Fin (map (fun e => 1 - e) l)) as E.
  { rewrite !map_map. apply map_ext. intro. reflexivity. }
  rewrite E. set (q := map (fun e => 1 - e) l). assert (List.length (map Fin l) = List.length (map Fin q)) as L by (unfold q; rewrite !map_length; auto).
  replace (List.length (map Fin l)) with (List.length (seq 0 (List.length (map Fin q)))) at 1 by (rewrite seq_length; auto).
  rewrite L, comb_drops by (destruct l; simpl in *; [lia|discriminate]).
  rewrite (map2_map_r' (fun e js => xmul e (xprod js))), drops_map, seq_nth_all, <- drops_map, map2_fin, xsum_fin, xprod_fin. reflexivity.
Qed.

(* the same by cases on the first panel *)
Lemma sum_filter_cons (p : list bool -> bool) e l b :
  Rsum (map (outcome_prob (e :: l)) (filter p (map (cons b) (outcomes (List.length l)))))
  = (if b then e else 1 - e) * Rsum (map (outcome_prob l) (filter (fun o => p (b :: o)) (outcomes (List.length l)))).
Proof.
  induction (outcomes (List.length l)) as [|o os IH]; simpl; [lra|].
  destruct (p (b :: o)); cbn [map Rsum]; rewrite IH; [|lra]. unfold outcome_prob at 1. cbn [map2 Rprod]. fold (outcome_prob l o). lra.
Qed.
Definition prob_if (p : list bool -> bool) (l : list R) : R := Rsum (map (outcome_prob l) (filter p (outcomes (List.length l)))).
Lemma prob_if_cons p e l : prob_if p (e :: l) = e * prob_if (fun o => p (true :: o)) l + (1 - e) * prob_if (fun o => p (false :: o)) l.
Proof. unfold prob_if. cbn [List.length outcomes]. rewrite filter_app, map_app, Rsum_app, !sum_filter_cons. reflexivity. Qed.
Lemma prob_if_ext p q l : (forall o, p o = q o) -> prob_if p l = prob_if q l.
Proof. intro H. unfold prob_if. rewrite (filter_ext p q) by auto. reflexivity. Qed.
Lemma prob_all l : prob_if (fun _ => true) l = 1.
Proof. induction l as [|e l IH]; [cbn; lra|]. rewrite prob_if_cons, IH. lra. Qed.
Definition least k o := Nat.leb k (count_true o).
Lemma least1 l : prob_if (least 1) l = 1 - none l.
Proof.
  induction l as [|e l IH]; [cbn; lra|]. rewrite prob_if_cons, (prob_if_ext _ (fun _ => true)) by (intro; reflexivity).
  rewrite (prob_if_ext (fun o => least 1 (false :: o)) (least 1)) by (intro; reflexivity). rewrite prob_all, IH. unfold none. cbn [map Rprod]. lra.
Qed.
Lemma least2 l : prob_if (least 2) l = 1 - one l - none l.
Proof.
  induction l as [|e l IH]; [cbn; lra|]. rewrite prob_if_cons, (prob_if_ext _ (least 1)) by (intro; reflexivity).
  rewrite (prob_if_ext (fun o => least 2 (false :: o)) (least 2)) by (intro; reflexivity). rewrite least1, IH, one_cons. unfold none. cbn [map Rprod]. lra.
Qed.
Lemma side_eff_spec l : (2 <= List.length l)%nat -> side_eff (map Fin l) = Ok (Fin (prob_two l)).
Proof. intro H. rewrite side_eff_fin, <- least2 by auto. reflexivity. Qed.

Lemma prob_if_bounds l : Forall probability l -> forall p, 0 <= prob_if p l <= 1.
Proof.
  induction 1 as [|e l [H0 H1] _ IH]; intro p; [unfold prob_if; cbn; destruct (p []); cbn; lra|].
  rewrite prob_if_cons. pose proof (IH (fun o => p (true :: o))). pose proof (IH (fun o => p (false :: o))). nra.
Qed.
Lemma prob_if_le l p q : Forall probability l -> (forall o, p o = true -> q o = true) -> prob_if p l <= prob_if q l.
Proof.
  intro H. revert p q. induction H as [|e l [H0 H1] _ IH]; intros p q Hpq.
  - unfold prob_if. cbn. specialize (Hpq []). destruct (p []), (q []); cbn; try lra; discriminate (Hpq eq_refl).
  - rewrite !prob_if_cons. pose proof (IH (fun o => p (true :: o)) (fun o => q (true :: o)) (fun o => Hpq (_ :: o))).
    pose proof (IH (fun o => p (false :: o)) (fun o => q (false :: o)) (fun o => Hpq (_ :: o))). nra.
Qed.
(* an event that more hits can only help *)
Lemma prob_mono l l' : Forall probability l -> Forall probability l' -> Forall2 Rle l l' -> forall k, prob_if (least k) l <= prob_if (least k) l'.
Proof.
  intros H H' M. revert H H'. induction M as [|e e' l l' Hle M IH]; intros H H' k; [lra|].
  inversion H as [|? ? [A0 A1] Hl]; inversion H' as [|? ? [B0 B1] Hl']; subst. rewrite !prob_if_cons.
  rewrite (prob_if_ext (fun o => least k (false :: o)) (least k) l), (prob_if_ext (fun o => least k (false :: o)) (least k) l') by (intro; reflexivity).
  assert (forall o, least k (true :: o) = least (k - 1) o) as E by (intro o; unfold least; destruct k; simpl; rewrite ?Nat.sub_0_r; auto).
  rewrite (prob_if_ext _ _ l E), (prob_if_ext _ _ l' E).
  pose proof (IH Hl Hl' (k - 1)%nat). pose proof (IH Hl Hl' k).
  assert (prob_if (least k) l' <= prob_if (least (k - 1)) l').
  { apply prob_if_le; auto. intro o. unfold least. rewrite !Nat.leb_le. lia. }
  assert (0 <= (e' - e) * (prob_if (least (k - 1)) l' - prob_if (least k) l')) by (apply Rmult_le_pos; lra).
  assert (0 <= e * (prob_if (least (k - 1)) l' - prob_if (least (k - 1)) l)) by (apply Rmult_le_pos; lra).
  assert (0 <= (1 - e) * (prob_if (least k) l' - prob_if (least k) l)) by (apply Rmult_le_pos; lra). lra.
Qed.
Lemma muon_eff_spec a b : (2 <= List.length a)%nat -> (2 <= List.length b)%nat ->
  muon_eff (map Fin a) (map Fin b) = Ok (Fin (prob_two a * prob_two b)).
Proof. intros. unfold muon_eff. rewrite !side_eff_spec by auto. reflexivity. Qed.
Lemma two_bounds l : Forall probability l -> 0 <= prob_two l <= 1.
Proof. intro H. exact (prob_if_bounds l H (least 2)). Qed.
Lemma two_mono l l' : Forall probability l -> Forall probability l' -> Forall2 Rle l l' -> prob_two l <= prob_two l'.
Proof. intros H H' M. exact (prob_mono l l' H H' M 2%nat). Qed.
