(* Real-number helpers: Boolean comparisons, floor, modulo, finite sums. *)
From Coq Require Export Reals Lra.
From Coq Require Import ZArith Psatz.
From Verif Require Export Base.Masks.
Open Scope R_scope.

Definition Rltb (a b : R) : bool := if Rlt_dec a b then true else false.
Definition Rleb (a b : R) : bool := if Rle_dec a b then true else false.
Definition Reqb (a b : R) : bool := if Req_EM_T a b then true else false.

Lemma Rltb_spec a b : reflect (a < b) (Rltb a b).
Proof. unfold Rltb; destruct (Rlt_dec a b); constructor; auto. Qed.
Lemma Rleb_spec a b : reflect (a <= b) (Rleb a b).
Proof. unfold Rleb; destruct (Rle_dec a b); constructor; auto. Qed.
Lemma Reqb_spec a b : reflect (a = b) (Reqb a b).
Proof. unfold Reqb; destruct (Req_EM_T a b); constructor; auto. Qed.
Lemma Rltb_true a b : Rltb a b = true <-> a < b.
Proof. destruct (Rltb_spec a b); split; auto; discriminate. Qed.
Lemma Rltb_false a b : Rltb a b = false <-> b <= a.
Proof. destruct (Rltb_spec a b); split; auto; try discriminate; lra. Qed.
Lemma Rleb_true a b : Rleb a b = true <-> a <= b.
Proof. destruct (Rleb_spec a b); split; auto; discriminate. Qed.
Lemma Rleb_false a b : Rleb a b = false <-> b < a.
Proof. destruct (Rleb_spec a b); split; auto; try discriminate; lra. Qed.
Lemma Reqb_true a b : Reqb a b = true <-> a = b.
Proof. destruct (Reqb_spec a b); split; auto; discriminate. Qed.
Lemma Reqb_false a b : Reqb a b = false <-> a <> b.
Proof. destruct (Reqb_spec a b); split; auto; try discriminate; tauto. Qed.

(* floor of a real *)
Definition Rfloor (x : R) : Z := Int_part x.
Lemma Rfloor_bounds x : IZR (Rfloor x) <= x < IZR (Rfloor x) + 1.
Proof. unfold Rfloor; destruct (base_Int_part x); split; lra. Qed.
Lemma Rfloor_unique x z : IZR z <= x < IZR z + 1 -> Rfloor x = z.
Proof.
  intros [H1 H2]. destruct (Rfloor_bounds x) as [H3 H4].
  assert (IZR z < IZR (Rfloor x + 1)) as A by (rewrite plus_IZR; lra).
  assert (IZR (Rfloor x) < IZR (z + 1)) as B by (rewrite plus_IZR; lra).
  apply lt_IZR in A; apply lt_IZR in B. lia.
Qed.

(* Python / torch float modulo for a positive modulus: result in [0, m) *)
Definition Rmod (x m : R) : R := x - m * IZR (Rfloor (x / m)).
Lemma Rmod_bounds x m : 0 < m -> 0 <= Rmod x m < m.
Proof.
  intro Hm. unfold Rmod. destruct (Rfloor_bounds (x / m)) as [H1 H2].
  assert (x = m * (x / m)) as E by (field; lra).
  set (k := IZR (Rfloor (x / m))) in *.
  assert (m * k <= m * (x/m)) by (apply Rmult_le_compat_l; lra).
  assert (m * (x/m) < m * (k + 1)) by (apply Rmult_lt_compat_l; lra).
  lra.
Qed.
Lemma Rmod_eq x m : exists k : Z, Rmod x m = x - IZR k * m.
Proof. exists (Rfloor (x / m)). unfold Rmod. ring. Qed.
Lemma Rmod_id x m : 0 < m -> 0 <= x < m -> Rmod x m = x.
Proof.
  intros Hm H. unfold Rmod.
  rewrite (Rfloor_unique (x / m) 0); [simpl; ring|].
  split.
  - apply Rmult_le_pos; [lra | left; apply Rinv_0_lt_compat; lra].
  - simpl. assert (x / m < 1); [|lra].
    apply Rmult_lt_reg_r with m; [lra|]. unfold Rdiv. rewrite Rmult_assoc, Rinv_l by lra. lra.
Qed.

(* finite sums of lists of reals *)
Fixpoint Rsum (l : list R) : R := match l with [] => 0 | x :: l' => x + Rsum l' end.
Fixpoint Rprod (l : list R) : R := match l with [] => 1 | x :: l' => x * Rprod l' end.

Lemma Rsum_app l l' : Rsum (l ++ l') = Rsum l + Rsum l'.
Proof. induction l as [|a l IH]; simpl; [ring | rewrite IH; ring]. Qed.
Lemma Rprod_app l l' : Rprod (l ++ l') = Rprod l * Rprod l'.
Proof. induction l as [|a l IH]; simpl; [ring | rewrite IH; ring]. Qed.
Lemma Rsum_map_mult {A} (f : A -> R) c l : Rsum (map (fun a => c * f a) l) = c * Rsum (map f l).
Proof. induction l as [|a l IH]; simpl; [ring | rewrite IH; ring]. Qed.
Lemma Rsum_map_plus {A} (f g : A -> R) l :
  Rsum (map (fun a => f a + g a) l) = Rsum (map f l) + Rsum (map g l).
Proof. induction l as [|a l IH]; simpl; [ring | rewrite IH; ring]. Qed.
Lemma Rsum_map_minus {A} (f g : A -> R) l :
  Rsum (map (fun a => f a - g a) l) = Rsum (map f l) - Rsum (map g l).
Proof. induction l as [|a l IH]; simpl; [ring | rewrite IH; ring]. Qed.
Lemma Rsum_map_ext {A} (f g : A -> R) l :
  (forall a, In a l -> f a = g a) -> Rsum (map f l) = Rsum (map g l).
Proof. induction l as [|a l IH]; simpl; intro H; auto. rewrite H, IH; auto. Qed.
Lemma Rsum_nonneg l : (forall x, In x l -> 0 <= x) -> 0 <= Rsum l.
Proof. induction l as [|a l IH]; simpl; intro H; [lra|]. assert (0 <= a) by auto. assert (0 <= Rsum l) by auto. lra. Qed.
Lemma Rsum_map_le {A} (f g : A -> R) l :
  (forall a, In a l -> f a <= g a) -> Rsum (map f l) <= Rsum (map g l).
Proof. induction l as [|a l IH]; simpl; intro H; [lra|]. assert (f a <= g a) by auto. assert (Rsum (map f l) <= Rsum (map g l)) by auto. lra. Qed.
Lemma Rsum_pos l : l <> [] -> (forall x, In x l -> 0 < x) -> 0 < Rsum l.
Proof.
  intros Hn H. destruct l as [|a l]; [congruence|]. simpl.
  assert (0 < a) by (apply H; left; auto).
  assert (0 <= Rsum l) by (apply Rsum_nonneg; intros x Hx; left; apply H; right; auto). lra.
Qed.
Lemma Rsum_const {A} c (l : list A) : Rsum (map (fun _ => c) l) = INR (length l) * c.
Proof. induction l as [|a l IH]; [simpl; ring|]. cbn [map Rsum length]. rewrite IH, S_INR. ring. Qed.
Lemma Rprod_nonneg l : (forall x, In x l -> 0 <= x) -> 0 <= Rprod l.
Proof. induction l as [|a l IH]; simpl; intro H; [lra|]. apply Rmult_le_pos; auto. Qed.
Lemma Rprod_pos l : (forall x, In x l -> 0 < x) -> 0 < Rprod l.
Proof. induction l as [|a l IH]; simpl; intro H; [lra|]. apply Rmult_lt_0_compat; auto. Qed.
Lemma Rprod_le1 l : (forall x, In x l -> 0 <= x <= 1) -> 0 <= Rprod l <= 1.
Proof.
  induction l as [|a l IH]; simpl; intro H; [lra|].
  assert (0 <= a <= 1) by auto. assert (0 <= Rprod l <= 1) by auto. nra.
Qed.

(* torch.clamp(x, lo, hi) = min(max(x, lo), hi): when lo > hi the result is hi *)
Definition Rclamp (lo hi x : R) : R := Rmin (Rmax x lo) hi.
Lemma Rclamp_bounds lo hi x : lo <= hi -> lo <= Rclamp lo hi x <= hi.
Proof. intro H; unfold Rclamp, Rmin, Rmax. destruct (Rle_dec x lo); destruct (Rle_dec _ hi); lra. Qed.
Lemma Rclamp_id lo hi x : lo <= x <= hi -> Rclamp lo hi x = x.
Proof. intro H; unfold Rclamp, Rmin, Rmax. destruct (Rle_dec x lo); destruct (Rle_dec _ hi); lra. Qed.

Definition sq (x : R) : R := x * x.
Lemma sq_nonneg x : 0 <= sq x.
Proof. unfold sq; nra. Qed.
