(* Boolean indexing and masked assignment of torch tensors, on lists. *)
From Verif Require Export Base.Res.

(* number of True elements of a Boolean mask: mask.sum() *)
Fixpoint count_true (m : list bool) : nat :=
  match m with [] => 0 | b :: m' => (if b then 1 else 0) + count_true m' end.

(* the elements of l at the True positions of m (lengths assumed equal) *)
Fixpoint select {A} (m : list bool) (l : list A) : list A :=
  match m, l with
  | b :: m', a :: l' => if b then a :: select m' l' else select m' l'
  | _, _ => []
  end.

(* l with the elements at the True positions of m replaced, in order, by v *)
Fixpoint put {A} (m : list bool) (l v : list A) : list A :=
  match m, l with
  | true :: m', a :: l' =>
      match v with
      | x :: v' => x :: put m' l' v'
      | [] => a :: put m' l' []
      end
  | false :: m', a :: l' => a :: put m' l' v
  | _, _ => l
  end.

(* t[m] : Boolean indexing along the first dimension; torch raises IndexError when the lengths differ *)
Definition bool_index {A} (m : list bool) (l : list A) : res (list A) :=
  if length m =? length l then Ok (select m l) else Err IndexError.

(* t[m] = v : masked assignment; RuntimeError when v does not have one row per True element *)
Definition bool_assign {A} (m : list bool) (l v : list A) : res (list A) :=
  if length m =? length l then
    if length v =? count_true m then Ok (put m l v) else Err RuntimeError
  else Err IndexError.

(* elementwise binary operation of two vectors of equal length *)
Fixpoint map2 {A B C} (f : A -> B -> C) (l : list A) (l' : list B) : list C :=
  match l, l' with
  | a :: t, b :: t' => f a b :: map2 f t t'
  | _, _ => []
  end.

Definition negm (m : list bool) : list bool := map negb m.
Definition all_true (n : nat) : list bool := repeat true n.

Lemma map2_length {A B C} (f : A -> B -> C) l l' :
  length (map2 f l l') = Nat.min (length l) (length l').
Proof. revert l'; induction l as [|a l IH]; intros [|b l']; simpl; auto. Qed.

Lemma select_length {A} m (l : list A) :
  length m = length l -> length (select m l) = count_true m.
Proof.
  revert l; induction m as [|b m IH]; intros [|a l]; simpl; intro H; try discriminate; auto.
  destruct b; simpl; rewrite IH by lia; auto.
Qed.

Lemma put_length {A} m (l v : list A) : length (put m l v) = length l.
Proof.
  revert l v; induction m as [|b m IH]; intros [|a l] v; simpl; auto.
  - destruct b; reflexivity.
  - destruct b; [destruct v; simpl; rewrite IH; auto | simpl; rewrite IH; auto].
Qed.

Lemma count_true_le m : count_true m <= length m.
Proof. induction m as [|[] m IH]; simpl; lia. Qed.

Lemma count_true_all n : count_true (all_true n) = n.
Proof. induction n; simpl; auto. Qed.

Lemma all_true_length n : length (all_true n) = n.
Proof. apply repeat_length. Qed.

Lemma select_all {A} (l : list A) : select (all_true (length l)) l = l.
Proof. induction l as [|a l IH]; simpl; auto. unfold all_true in IH. rewrite IH; auto. Qed.

Lemma select_map {A B} (f : A -> B) m l : select m (map f l) = map f (select m l).
Proof. revert l; induction m as [|[] m IH]; intros [|a l]; simpl; auto. rewrite IH; auto. Qed.

Lemma select_map2 {A B C} (f : A -> B -> C) m l l' :
  select m (map2 f l l') = map2 f (select m l) (select m l').
Proof.
  revert l l'; induction m as [|b m IH]; intros [|a l] [|a' l']; simpl; auto.
  - destruct b; [| destruct (select m l)]; reflexivity.
  - destruct b; simpl; rewrite IH; auto.
Qed.

(* select with a mask computed elementwise is filter *)
Lemma select_filter {A} (p : A -> bool) (l : list A) : select (map p l) l = filter p l.
Proof. induction l as [|a l IH]; simpl; auto. destruct (p a); rewrite IH; auto. Qed.

Lemma count_true_full m : count_true m = length m -> m = all_true (length m).
Proof.
  induction m as [|b m IH]; simpl; auto.
  pose proof (count_true_le m).
  destruct b; intro E; [| lia].
  change (true :: m = true :: all_true (length m)). f_equal. apply IH; lia.
Qed.

(* writing back f of the selected elements = applying f where the mask is true *)
Lemma put_select_map2 {A B} (f : A -> B -> A) m (l : list A) (d : list B) :
  length m = length l -> length d = length l ->
  put m l (map2 f (select m l) (select m d)) =
  map2 (fun a (bd : bool * B) => if fst bd then f a (snd bd) else a) l (combine m d).
Proof.
  revert l d; induction m as [|b m IH]; intros [|a l] [|x d]; simpl; intros H1 H2; try discriminate; auto.
  destruct b; simpl; rewrite IH by lia; auto.
Qed.

Lemma put_select_map {A} (f : A -> A) m (l : list A) :
  length m = length l ->
  put m l (map f (select m l)) = map2 (fun a (b : bool) => if b then f a else a) l m.
Proof.
  revert l; induction m as [|b m IH]; intros [|a l]; simpl; intros H1; try discriminate; auto.
  destruct b; simpl; rewrite IH by lia; auto.
Qed.

Lemma bool_index_ok {A} m (l : list A) : length m = length l -> bool_index m l = Ok (select m l).
Proof. intro H; unfold bool_index; rewrite H, Nat.eqb_refl; auto. Qed.

Lemma bool_assign_ok {A} m (l v : list A) :
  length m = length l -> length v = count_true m -> bool_assign m l v = Ok (put m l v).
Proof. intros H H'; unfold bool_assign; rewrite H, H', !Nat.eqb_refl; auto. Qed.

Lemma map2_map_l {A A' B C} (f : A' -> B -> C) (g : A -> A') l l' :
  map2 f (map g l) l' = map2 (fun a b => f (g a) b) l l'.
Proof. revert l'; induction l as [|a l IH]; intros [|b l']; simpl; auto. rewrite IH; auto. Qed.

Lemma map2_map_r {A B B' C} (f : A -> B' -> C) (g : B -> B') l l' :
  map2 f l (map g l') = map2 (fun a b => f a (g b)) l l'.
Proof. revert l'; induction l as [|a l IH]; intros [|b l']; simpl; auto. rewrite IH; auto. Qed.

Lemma map_map2 {A B C D} (g : C -> D) (f : A -> B -> C) l l' :
  map g (map2 f l l') = map2 (fun a b => g (f a b)) l l'.
Proof. revert l'; induction l as [|a l IH]; intros [|b l']; simpl; auto. rewrite IH; auto. Qed.

Lemma map2_nth {A B C} (f : A -> B -> C) l l' i a b c :
  i < length l -> i < length l' -> nth i (map2 f l l') c = f (nth i l a) (nth i l' b).
Proof.
  revert l' i; induction l as [|x l IH]; intros [|y l'] [|i]; simpl; intros H1 H2; try lia; auto.
  apply IH; lia.
Qed.

Lemma map2_ext {A B C} (f g : A -> B -> C) l l' :
  (forall a b, f a b = g a b) -> map2 f l l' = map2 g l l'.
Proof. intro E; revert l'; induction l as [|x l IH]; intros [|y l']; simpl; auto. rewrite E, IH; auto. Qed.

Lemma map2_const_r {A B C} (f : A -> C) l (l' : list B) :
  length l = length l' -> map2 (fun a _ => f a) l l' = map f l.
Proof. revert l'; induction l as [|x l IH]; intros [|y l']; simpl; intro H; try discriminate; auto. rewrite IH by lia; auto. Qed.

Lemma negm_length m : length (negm m) = length m.
Proof. apply map_length. Qed.

From Coq Require Import Permutation.
Lemma select_perm {A} m (l : list A) :
  length m = length l -> Permutation (select m l ++ select (negm m) l) l.
Proof.
  revert l; induction m as [|b m IH]; intros [|a l]; simpl; intro H; try discriminate; auto.
  destruct b; simpl.
  - constructor; apply IH; lia.
  - rewrite <- Permutation_middle. constructor; apply IH; lia.
Qed.

Lemma in_select {A} m (l : list A) a : In a (select m l) -> In a l.
Proof.
  revert l; induction m as [|b m IH]; intros [|x l]; simpl; try tauto.
  destruct b; simpl; intuition eauto.
Qed.
