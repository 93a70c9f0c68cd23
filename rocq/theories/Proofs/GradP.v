(* Uncertainties from gradients. *)
Require Import Reals Lra Lia.
From Verif Require Import Model.Grad Spec.GradSpec Proofs.LadleP Base.XR.
Open Scope R_scope.
Open Scope list_scope.

Lemma set_at_len {A} k (t : A) x : (k < List.length x)%nat -> List.length (set_at k t x) = List.length x.
Proof. intros H. unfold set_at. rewrite app_length, firstn_length. cbn [List.length]. rewrite skipn_length. lia. Qed.
Lemma set_at_nth {A} k (t : A) x d : (k < List.length x)%nat -> nth k (set_at k t x) d = t.
Proof. intros H. unfold set_at. rewrite app_nth2; rewrite firstn_length; [|lia]. replace (k - Nat.min k (List.length x))%nat with 0%nat by lia. reflexivity. Qed.
Lemma set_at_other {A} k j (t : A) x d : j <> k -> (k < List.length x)%nat -> nth j (set_at k t x) d = nth j x d.
Proof.
  revert k j. induction x as [|a x IH]; intros k j N H; [cbn in H; lia|].
  destruct k as [|k]; destruct j as [|j]; try lia; cbn; try reflexivity. apply IH; [lia|cbn in H; lia].
Qed.
Lemma concat_at {A} K (hs : list (list A)) m j d : Forall (fun h => List.length h = K) hs -> (m < List.length hs)%nat -> (j < K)%nat ->
  nth (m * K + j) (concat hs) d = nth j (nth m hs []) d.
Proof.
  revert m. induction hs as [|h hs IH]; intros m F Hm Hj; [cbn in Hm; lia|]. inversion F; subst. cbn [concat].
  destruct m as [|m]; [rewrite app_nth1 by lia; reflexivity|]. rewrite app_nth2 by lia. cbn [nth]. rewrite <- IH; try assumption; [|cbn in Hm; lia].
  f_equal. lia.
Qed.
Lemma concat_len {A} K (hs : list (list A)) : Forall (fun h => List.length h = K) hs -> List.length (concat hs) = (List.length hs * K)%nat.
Proof. induction 1; cbn; [reflexivity|]. rewrite app_length. lia. Qed.
Lemma set_at_concat {A} K (hs : list (list A)) m j t : Forall (fun h => List.length h = K) hs -> (m < List.length hs)%nat -> (j < K)%nat ->
  set_at (m * K + j) t (concat hs) = concat (set_at m (set_at j t (nth m hs [])) hs).
Proof.
  revert m. induction hs as [|h hs IH]; intros m F Hm Hj; [cbn in Hm; lia|]. inversion F as [|? ? E F']; subst. cbn [concat].
  destruct m as [|m].
  - cbn [nth Nat.mul Nat.add]. change (set_at 0 ?b (h :: hs)) with (b :: hs). cbn [concat]. unfold set_at. rewrite firstn_app, skipn_app.
    replace (j - List.length h)%nat with 0%nat by lia. replace (S j - List.length h)%nat with 0%nat by lia. cbn [firstn skipn]. rewrite app_nil_r, <- app_assoc. reflexivity.
  - assert (Hm' : (m < List.length hs)%nat) by (cbn in Hm; lia). specialize (IH m F' Hm' Hj).
    replace (S m * List.length h + j)%nat with (List.length h + (m * List.length h + j))%nat by lia.
    change (set_at (S m) ?b (h :: hs)) with (h :: set_at m b hs). cbn [concat nth]. rewrite <- IH. unfold set_at.
    replace (S (List.length h + (m * List.length h + j))) with (List.length h + S (m * List.length h + j))%nat by lia.
    rewrite firstn_app, skipn_app, firstn_all2, (skipn_all2 h) by lia.
    replace (List.length h + (m * List.length h + j) - List.length h)%nat with (m * List.length h + j)%nat by lia.
    replace (List.length h + S (m * List.length h + j) - List.length h)%nat with (S (m * List.length h + j)) by lia. rewrite <- app_assoc. reflexivity.
Qed.
Lemma set_at_forall {A} (Q : A -> Prop) m b l : Q b -> Forall Q l -> Forall Q (set_at m b l).
Proof.
  intros Hb Hl. unfold set_at. apply Forall_app. split; [|constructor; [exact Hb|]].
  - apply Forall_forall. intros y Hy. apply (proj1 (Forall_forall Q l) Hl). rewrite <- (firstn_skipn m l). apply in_or_app. left. exact Hy.
  - apply Forall_forall. intros y Hy. apply (proj1 (Forall_forall Q l) Hl). rewrite <- (firstn_skipn (S m) l). apply in_or_app. right. exact Hy.
Qed.

Lemma partial_unique f x k d d' : partial f x k d -> partial f x k d' -> d = d'.
Proof. intros H H'. exact (uniqueness_limite _ _ _ _ H H'). Qed.
Lemma partial_ext f g x k d : (forall t, f (set_at k t x) = g (set_at k t x)) -> partial f x k d -> partial g x k d.
Proof.
  intros E H eps He. destruct (H eps He) as (delta & D). exists delta. intros h Hh Hd. specialize (D h Hh Hd). rewrite !E in D. exact D.
Qed.
Lemma partial_const f x k d c : (forall t, f (set_at k t x) = c) -> partial f x k d -> d = 0.
Proof.
  intros E H. assert (Z : derivable_pt_lim (fun t => f (set_at k t x)) (nth k x 0) 0).
  { intros eps He. exists (mkposreal 1 ltac:(lra)). intros h Hh _. rewrite !E. replace ((c - c) / h - 0) with 0 by (field; exact Hh). rewrite Rabs_R0. exact He. }
  exact (uniqueness_limite _ _ _ _ H Z).
Qed.
(* a change of variables *)
Lemma derivable_ext' f g x d : (forall t, f t = g t) -> derivable_pt_lim f x d -> derivable_pt_lim g x d.
Proof. intros E H eps He. destruct (H eps He) as (delta & D). exists delta. intros h Hh Hd. specialize (D h Hh Hd). rewrite !E in D. exact D. Qed.

Lemma xsum_fin l : xsum (map Fin l) = Fin (Rsum l).
Proof. induction l as [|a l IH]; [reflexivity|]. change (xsum (map Fin (a :: l))) with (xadd (Fin a) (xsum (map Fin l))). rewrite IH. reflexivity. Qed.
Lemma Rsum_only {A} (eqd : forall a b : A, {a = b} + {a <> b}) (f : A -> R) l a : NoDup l -> In a l -> (forall b, In b l -> b <> a -> f b = 0) -> Rsum (map f l) = f a.
Proof.
  induction l as [|x l IH]; intros N I Z; [destruct I|]. inversion N as [|? ? Nx N']; subst. cbn [map Rsum]. destruct (eqd x a) as [->|Hx].
  - assert (E : Rsum (map f l) = 0).
    { rewrite (Rsum_map_ext f (fun _ => 0)); [rewrite Rsum_const; ring|]. intros b Hb. apply Z; [right; exact Hb|]. intros ->. contradiction. }
    rewrite E. ring.
  - destruct I as [->|I]; [contradiction|]. rewrite (Z x (or_introl eq_refl) Hx). rewrite IH; try assumption; [ring|]. intros b Hb. apply Z. right. exact Hb.
Qed.

Lemma propagate_fin ds us : propagate (map Fin ds) (map Fin us) = Fin (quadrature ds us).
Proof.
  unfold propagate, quadrature.
  assert (E : map xsquare (map2 xmul (map Fin ds) (map Fin us)) = map Fin (map2 (fun d u => (d * u) * (d * u)) ds us)).
  { revert us. induction ds as [|d ds IH]; intros [|u us]; try reflexivity. cbn [map map2]. rewrite IH. reflexivity. }
  rewrite E, xsum_fin. apply xsqrt_fin. apply Rsum_nonneg. clear E. revert us. induction ds as [|d ds IH]; intros us x Hx; [destruct us; destruct Hx|].
  destruct us as [|u us]; [destruct Hx|]. destruct Hx as [<-|Hx]; [apply Rle_0_sqr|]. exact (IH us x Hx).
Qed.

Lemma no_inf_counted u r : counted u r -> no_inf u = Fin r.
Proof. intros [H|[H H0]]; [rewrite H; reflexivity|]. rewrite H0. unfold no_inf. rewrite H. reflexivity. Qed.
Lemma no_inf_all us rs : Forall2 counted us rs -> map no_inf us = map Fin rs.
Proof. induction 1; [reflexivity|]. cbn [map]. f_equal; [apply no_inf_counted; assumption|assumption]. Qed.

Lemma jacobian_rows n vjp (f : nat -> list R -> R) x : (0 < n)%nat -> right_gradients n f x vjp ->
  exists rows, clean_jacobian n vjp = Ok (map (map nan_to_num) rows) /\ List.length rows = n
  /\ forall a, (a < n)%nat -> exists row, nth_error rows a = Some row /\ vjp (unit_row n a) = Some row /\ List.length row = List.length x
     /\ forall b, (b < List.length x)%nat -> nth b row NaN = NaN \/ exists d, nth b row NaN = Fin d /\ partial (f a) x b d.
Proof.
  intros Hn G. unfold clean_jacobian, jacobian. destruct (Nat.eqb_spec n 0); [lia|].
  set (g := fun a => match vjp (unit_row n a) with Some r => r | None => [] end).
  assert (E : mapM (fun a => match vjp (unit_row n a) with Some r => Ok r | None => Err AttributeError end) (seq 0 n) = Ok (map g (seq 0 n))).
  { assert (P : forall l, (forall a, In a l -> (a < n)%nat) -> mapM (fun a => match vjp (unit_row n a) with Some r => Ok r | None => Err AttributeError end) l = Ok (map g l)).
    { induction l as [|a l IH]; intros L; [reflexivity|]. cbn [mapM map]. destruct (G a) as (row & Er & _); [apply L; left; reflexivity|]. rewrite Er. cbn [bind].
      rewrite IH by (intros b Hb; apply L; right; exact Hb). cbn [bind]. unfold g at 2. rewrite Er. reflexivity. }
    apply P. intros a Ha. apply in_seq in Ha. lia. }
  rewrite E. cbn [bind]. exists (map g (seq 0 n)). split; [reflexivity|]. split; [rewrite map_length, seq_length; reflexivity|].
  intros a Ha. destruct (G a Ha) as (row & Er & L & D). exists row. split; [|split; [exact Er|split; [exact L|exact D]]].
  rewrite nth_error_map, (nth_error_nth' _ 0%nat) by (rewrite seq_length; lia). rewrite seq_nth by lia. cbn. unfold g. rewrite Er. reflexivity.
Qed.

Lemma parts_nth {A} k n (l : list A) i : (i < n)%nat -> nth_error (parts k n l) i = Some (firstn k (skipn (i * k) l)).
Proof. intros H. unfold parts. rewrite nth_error_map, (nth_error_nth' _ 0%nat) by (rewrite seq_length; lia). rewrite seq_nth by lia. reflexivity. Qed.
Lemma part_at {A} k (l : list A) i j : (j < k)%nat -> nth_error (firstn k (skipn (i * k) l)) j = nth_error l (i * k + j).
Proof.
  intros H. revert l. generalize (i * k)%nat as s. induction s as [|s IH]; intros l; cbn [skipn Nat.add].
  - revert k j H. induction l as [|a l IH]; intros [|k] [|j] H; try lia; try reflexivity. cbn [firstn nth_error]. apply IH. lia.
  - destruct l as [|a l]; [rewrite firstn_nil; destruct j; reflexivity|]. cbn [nth_error]. apply IH.
Qed.
Lemma map2_at {A B C} (f : A -> B -> C) l l' i a b : nth_error l i = Some a -> nth_error l' i = Some b -> nth_error (map2 f l l') i = Some (f a b).
Proof. revert l' i. induction l as [|x l IH]; intros [|y l'] [|i] H H'; try discriminate; cbn in *; [congruence|]. apply IH; assumption. Qed.

Lemma nan_at l i : (i < List.length l)%nat -> nth i (map nan_to_num l) NaN = nan_to_num (nth i l NaN).
Proof. intros H. rewrite (nth_indep _ NaN (nan_to_num NaN)) by (rewrite map_length; exact H). apply map_nth. Qed.

Lemma propagation nv g f K hits uncs us vjp :
  Forall (fun h => List.length h = K) hits -> per_muon_var nv g f K (List.length hits) ->
  right_gradients (List.length hits * nv) f (concat hits) vjp ->
  Forall2 (fun row r => List.length r = K /\ Forall2 counted (flat_map l3 row) r) uncs us -> List.length uncs = List.length hits ->
  (0 < List.length hits)%nat -> (0 < nv)%nat ->
  exists out, out_var_unc vjp nv uncs = Ok out
  /\ List.length out = List.length hits
  /\ forall m c, (m < List.length hits)%nat -> (c < nv)%nat ->
     exists row ds, nth_error out m = Some row /\ List.length ds = K /\ nth_error row c = Some (Fin (quadrature ds (nth m us [])))
     /\ forall k, (k < K)%nat ->
        (has_gradient (List.length hits * nv) vjp (m * nv + c) (m * K + k) -> partial (g m c) (nth m hits []) k (nth k ds 0))
        /\ (~ has_gradient (List.length hits * nv) vjp (m * nv + c) (m * K + k) -> nth k ds 0 = 0).
Proof.
  intros FK Loc G U LU HM Hv. set (M := List.length hits) in *.
  assert (Hn : (0 < M * nv)%nat) by nia.
  destruct (jacobian_rows _ _ _ _ Hn G) as (rows & Ej & Lr & Dr).
  unfold out_var_unc. rewrite LU. fold M. rewrite Ej. cbn [bind].
  set (flat := map (fun row => map no_inf (flat_map l3 row)) uncs).
  eexists. split; [reflexivity|]. split.
  { rewrite map2_length. unfold parts, flat. rewrite !map_length, seq_length, LU. fold M. lia. }
  intros m c Hm Hc. assert (Ha : (m * nv + c < M * nv)%nat) by nia. destruct (Dr _ Ha) as (row & Er & Ev & Lrow & Drow).
  pose proof (concat_len K hits FK) as Lc. fold M in Lc.
  (* the uncertainties of this muon *)
  assert (HmU : (m < List.length uncs)%nat) by (rewrite LU; exact Hm).
  destruct (nth_error uncs m) as [u|] eqn:Eu; [|apply nth_error_None in Eu; lia].
  assert (Eus : exists r, nth_error us m = Some r /\ List.length r = K /\ Forall2 counted (flat_map l3 u) r).
  { clear - U Eu. revert m Eu. induction U as [|a b ua ub H U IH]; intros [|m] Eu; try discriminate; cbn in *; [injection Eu as <-; exists b; tauto|]. apply IH. exact Eu. }
  destruct Eus as (r & Er' & Lr' & Cr).
  assert (Eflat : nth_error flat m = Some (map Fin r)).
  { unfold flat. rewrite nth_error_map, Eu. cbn. f_equal. apply no_inf_all. exact Cr. }
  set (e := fun b => match nth b row NaN with Fin d => d | _ => 0 end).
  set (ds := map (fun k => e (m * K + k)%nat) (seq 0 K)).
  assert (Esum : sum_muons M K (map nan_to_num row) = map Fin ds).
  { unfold sum_muons, ds. rewrite map_map. apply map_ext_in. intros j Hj. apply in_seq in Hj.
    rewrite (map_ext_in (fun m0 => nth (m0 * K + j) (map nan_to_num row) NaN) (fun m0 => Fin (e (m0 * K + j)%nat))).
    2:{ intros m0 H0. apply in_seq in H0. assert (B : (m0 * K + j < List.length row)%nat) by (rewrite Lrow, Lc; nia).
        rewrite nan_at by exact B. unfold e. rewrite Lrow in B. destruct (Drow _ B) as [->|(d & -> & _)]; reflexivity. }
    rewrite <- (map_map (fun m0 => e (m0 * K + j)%nat) Fin), xsum_fin. f_equal.
    apply (Rsum_only Nat.eq_dec (fun m0 => e (m0 * K + j)%nat)); [apply seq_NoDup|apply in_seq; lia|].
    intros m0 H0 N0. apply in_seq in H0. unfold e. assert (B : (m0 * K + j < List.length (concat hits))%nat) by (rewrite Lc; nia).
    destruct (Drow _ B) as [->|(d & -> & P)]; [reflexivity|].
    apply (partial_const _ _ _ _ (g m c (nth m hits [])) ) in P; [exact P|]. intros t.
    rewrite (set_at_concat K) by (try assumption; fold M; lia).
    assert (L0 : (m0 < List.length hits)%nat) by (fold M; lia).
    rewrite Loc; [|rewrite set_at_len by exact L0; reflexivity| |exact Hm|exact Hc].
    - rewrite set_at_other by (try lia; exact L0). reflexivity.
    - apply set_at_forall; [|exact FK]. assert (Lm : List.length (nth m0 hits []) = K) by (apply (proj1 (Forall_forall _ _) FK), nth_In; exact L0).
      rewrite set_at_len by (rewrite Lm; lia). exact Lm. }
  assert (Ep : nth_error (parts nv M (map (map nan_to_num) rows)) m = Some (firstn nv (skipn (m * nv) (map (map nan_to_num) rows)))) by (apply parts_nth; exact Hm).
  eexists. exists ds. split; [apply (map2_at _ _ _ _ _ _ Ep Eflat)|]. split; [unfold ds; rewrite map_length, seq_length; reflexivity|]. split.
  - rewrite nth_error_map, part_at by exact Hc. rewrite nth_error_map, Er. cbn [option_map]. rewrite map_length, Lr'. rewrite Esum, propagate_fin.
    rewrite (nth_error_nth _ _ [] Er'). reflexivity.
  - intros k Hk. assert (Ek : nth k ds 0 = e (m * K + k)%nat).
    { unfold ds. rewrite (nth_indep _ 0 (e (m * K + 0)%nat)) by (rewrite map_length, seq_length; exact Hk).
      rewrite (map_nth (fun k => e (m * K + k)%nat)), seq_nth by exact Hk. reflexivity. }
    rewrite Ek. unfold e. assert (B : (m * K + k < List.length (concat hits))%nat) by (rewrite Lc; nia). split.
    + intros (row' & d & Ev' & Ed). rewrite Ev in Ev'. injection Ev' as <-. destruct (Drow _ B) as [E|(d' & E & P)]; [congruence|]. rewrite E.
      assert (Hm' : (m < List.length hits)%nat) by (fold M; lia).
      assert (Lm : List.length (nth m hits []) = K) by (apply (proj1 (Forall_forall _ _) FK), nth_In; exact Hm').
      unfold partial in *. rewrite (concat_at K) in P by assumption.
      refine (derivable_ext' _ _ _ _ _ P). intros t. rewrite (set_at_concat K) by assumption. rewrite Loc; [|rewrite set_at_len by exact Hm'; reflexivity| |exact Hm|exact Hc].
      * rewrite set_at_nth by exact Hm'. reflexivity.
      * apply set_at_forall; [|exact FK]. rewrite set_at_len by (rewrite Lm; lia). exact Lm.
    + intros N. destruct (Drow _ B) as [->|(d' & E & P)]; [reflexivity|]. exfalso. apply N. exists row, d'. split; [exact Ev|exact E].
Qed.

(* ---------- quadrature ---------- *)
Lemma quad_terms_nonneg ds us x : In x (map2 (fun d u => (d * u) * (d * u)) ds us) -> 0 <= x.
Proof. revert us. induction ds as [|d ds IH]; intros [|u us] H; try destruct H as []. - subst x. apply Rle_0_sqr. - exact (IH us H). Qed.
Lemma quad_nonneg ds us : 0 <= quadrature ds us.
Proof. apply sqrt_pos. Qed.
Lemma quad_sq ds us : quadrature ds us * quadrature ds us = Rsum (map2 (fun d u => (d * u) * (d * u)) ds us).
Proof. apply sqrt_sqrt, Rsum_nonneg. intros x. apply quad_terms_nonneg. Qed.
Lemma quad_ge ds us k : (k < List.length ds)%nat -> (k < List.length us)%nat -> Rabs (nth k ds 0 * nth k us 0) <= quadrature ds us.
Proof.
  intros H H'. rewrite <- sqrt_Rsqr_abs. apply sqrt_le_1_alt. unfold Rsqr. revert us k H H'. induction ds as [|d ds IH]; intros [|u us] [|k] H H'; cbn [List.length] in *; try lia; cbn [nth map2 Rsum].
  - assert (0 <= Rsum (map2 (fun d u => (d * u) * (d * u)) ds us)) by (apply Rsum_nonneg; intros x; apply quad_terms_nonneg). lra.
  - assert (0 <= d * u * (d * u)) by apply Rle_0_sqr. specialize (IH us k ltac:(lia) ltac:(lia)). lra.
Qed.
Lemma quad_le ds us : quadrature ds us <= Rsum (map2 (fun d u => Rabs (d * u)) ds us).
Proof.
  assert (N : forall us ds, 0 <= Rsum (map2 (fun d u => Rabs (d * u)) ds us)).
  { intros us' ds'. revert us'. induction ds' as [|d ds' IH]; intros [|u us']; cbn; try lra. pose proof (Rabs_pos (d * u)). specialize (IH us'). lra. }
  apply Rsqr_incr_0_var; [|apply N]. unfold Rsqr. rewrite quad_sq. revert us. induction ds as [|d ds IH]; intros [|u us]; cbn [map2 Rsum]; try lra.
  specialize (IH us). specialize (N us ds). pose proof (Rabs_pos (d * u)) as P. assert (E : d * u * (d * u) = Rabs (d * u) * Rabs (d * u)) by (rewrite <- Rabs_mult; symmetry; apply Rabs_right, Rle_ge, Rle_0_sqr).
  rewrite E. nra.
Qed.
Lemma quad_scale ds us k : 0 <= k -> quadrature ds (map (Rmult k) us) = k * quadrature ds us.
Proof.
  intros Hk. unfold quadrature. assert (E : Rsum (map2 (fun d u => d * u * (d * u)) ds (map (Rmult k) us)) = (k * k) * Rsum (map2 (fun d u => d * u * (d * u)) ds us)).
  { revert us. induction ds as [|d ds IH]; intros [|u us]; cbn [map map2 Rsum]; try ring. rewrite IH. ring. }
  rewrite E, sqrt_mult_alt by nra. rewrite sqrt_square by exact Hk. reflexivity.
Qed.
Lemma quad_mono ds us us' : Forall2 (fun u u' => Rabs u <= Rabs u') us us' -> quadrature ds us <= quadrature ds us'.
Proof.
  intros H. apply sqrt_le_1_alt. revert ds. induction H as [|u u' us us' Hu H IH]; intros [|d ds]; cbn [map2 Rsum]; try lra. specialize (IH ds).
  assert (d * u * (d * u) <= d * u' * (d * u')).
  { replace (d * u * (d * u)) with ((d * d) * (u * u)) by ring. replace (d * u' * (d * u')) with ((d * d) * (u' * u')) by ring.
    apply Rmult_le_compat_l; [nra|]. exact (Rsqr_le_abs_1 _ _ Hu). }
  lra.
Qed.

(* ---------- a muon alone decides its uncertainties ---------- *)
Lemma derivs_unique f x ds ds' : List.length ds = List.length ds' -> (forall k, (k < List.length ds)%nat -> partial f x k (nth k ds 0) /\ partial f x k (nth k ds' 0)) -> ds = ds'.
Proof. intros L H. apply (nth_ext _ _ 0 0 L). intros k Hk. destruct (H k Hk). eapply partial_unique; eassumption. Qed.

(* ---------- the X0s ---------- *)
Lemma x0_propagation f x uncs us vjp n : right_gradients n f x vjp -> (0 < n)%nat ->
  Forall2 counted (concat uncs) us -> List.length us = List.length x ->
  exists out, x0_pred_uncs vjp n uncs = Ok out /\ List.length out = n
  /\ forall a, (a < n)%nat -> exists ds, List.length ds = List.length x /\ nth_error out a = Some (Fin (quadrature ds us))
     /\ forall b, (b < List.length x)%nat ->
        (has_gradient n vjp a b -> partial (f a) x b (nth b ds 0)) /\ (~ has_gradient n vjp a b -> nth b ds 0 = 0).
Proof.
  intros G Hn U L. destruct (jacobian_rows _ _ _ _ Hn G) as (rows & Ej & Lr & Dr). unfold x0_pred_uncs. rewrite Ej. cbn [bind].
  eexists. split; [reflexivity|]. split; [rewrite !map_length; exact Lr|]. intros a Ha. destruct (Dr a Ha) as (row & Er & Ev & Lrow & Drow).
  set (e := fun b => match nth b row NaN with Fin d => d | _ => 0 end). exists (map e (seq 0 (List.length x))).
  split; [rewrite map_length, seq_length; reflexivity|]. split.
  - rewrite nth_error_map, nth_error_map, Er. cbn [option_map]. rewrite (no_inf_all _ _ U). f_equal. rewrite <- propagate_fin. f_equal. rewrite map_map.
    apply (nth_ext _ _ NaN NaN); [rewrite !map_length, seq_length; exact Lrow|]. intros b Hb. rewrite map_length in Hb. rewrite nan_at by exact Hb.
    rewrite Lrow in Hb. rewrite (nth_indep (map (fun b => Fin (e b)) (seq 0 (List.length x))) NaN (Fin (e 0%nat))) by (rewrite map_length, seq_length; exact Hb). rewrite (map_nth (fun b => Fin (e b))), seq_nth by exact Hb.
    unfold e. cbn [Nat.add]. destruct (Drow b Hb) as [->|(d & -> & _)]; reflexivity.
  - intros b Hb. rewrite (nth_indep _ 0 (e 0%nat)) by (rewrite map_length, seq_length; exact Hb). rewrite (map_nth e), seq_nth by exact Hb. cbn [Nat.add]. unfold e. split.
    + intros (row' & d & Ev' & Ed). rewrite Ev in Ev'. injection Ev' as <-. destruct (Drow b Hb) as [E|(d' & E & P)]; [congruence|]. rewrite E. exact P.
    + intros N. destruct (Drow b Hb) as [->|(d' & E & P)]; [reflexivity|]. exfalso. apply N. exists row, d'. split; assumption.
Qed.

Lemma has_gradient_dec n vjp a b : has_gradient n vjp a b \/ ~ has_gradient n vjp a b.
Proof.
  unfold has_gradient. destruct (vjp (unit_row n a)) as [row|]; [|right; intros (r & d & E & _); discriminate].
  destruct (nth b row NaN) as [d| | |] eqn:E; [left; exists row, d; split; [reflexivity|exact E]| | |]; right; intros (r & d & E' & E2); injection E' as <-; congruence.
Qed.
