(* Proofs for C52 and C55. *)
From Coq Require Import Reals Lra Lia List Bool.
From Verif Require Import Model.DataCb Spec.MuonSpec Spec.AngleSpec Spec.LayerSpec Spec.VolumeSpec Spec.DataCbSpec
  Proofs.MuonHeapP Proofs.MuonMoves Proofs.LayerP Proofs.LayerCross Proofs.PanelP.
Import ListNotations.
Open Scope R_scope.
Open Scope list_scope.

(* ---------- the check of one batch ---------- *)
Definition num (a : xr) : R := match a with Fin x => x | _ => 0 end.
Definition case_of (h : R) (r : row5) : go_case := let '(x, y, p, th, ph) := r in GC true (num x) (num y) h p (num th) (num ph) 0.
Definition pass (ls : list layer) (lx ly h : R) (r : row5) : bool :=
  existsb (fun L => in_xy (Some (Fin 0, Fin 0)) (Some (Fin lx, Fin ly)) (at_height (case_of h r) (pl_z L))) (passives ls).

Lemma flies_case h r : flies r -> downwards (case_of h r) /\ pad_row r (Fin h) = along (case_of h r) 0.
Proof.
  intros (x & y & th & ph & p & -> & T). split; [exact T|]. unfold case_of, along, dir, pad_row. cbn [num g_x g_y g_z g_th g_ph g_p].
  rewrite !Rmult_0_l, !Rplus_0_r. reflexivity.
Qed.
Lemma in_xy_num lx ly u x y : mx u = Fin x -> my u = Fin y ->
  (in_xy (Some (Fin 0, Fin 0)) (Some (Fin lx, Fin ly)) u = true <-> 0 <= x < lx /\ 0 <= y < ly).
Proof.
  intros Ex Ey. unfold in_xy. rewrite Ex, Ey. cbn [fst snd xle xlt].
  rewrite !andb_true_iff, ?Rleb_true, ?Rltb_true. tauto.
Qed.
Lemma over_pass lx ly h r z : flies r ->
  (in_xy (Some (Fin 0, Fin 0)) (Some (Fin lx, Fin ly)) (at_height (case_of h r) z) = true <-> over_at lx ly h r z).
Proof.
  intros (x & y & th & ph & p & -> & T).
  assert (0 < cos th) as C by (apply cos_gt_0; lra).
  unfold at_height, along, dir, case_of. cbn [num g_x g_y g_z g_th g_ph g_p].
  rewrite in_xy_num by reflexivity. unfold over_at, starts, tan.
  replace ((h - z) / cos th * (sin th * cos ph)) with ((h - z) * (sin th / cos th * cos ph)) by (field; lra).
  replace ((h - z) / cos th * (sin th * sin ph)) with ((h - z) * (sin th / cos th * sin ph)) by (field; lra).
  split.
  - intros [A B]. exists x, y, th, ph. split; [exists p; auto|]. auto.
  - intros (x' & y' & th' & ph' & (p' & E & _) & A & B). injection E as <- <- _ <- <-. auto.
Qed.
Lemma pass_enters ls lx ly h r : flies r -> (pass ls lx ly h r = true <-> enters lx ly h ls r).
Proof.
  intro F. unfold pass, enters. rewrite existsb_exists. split; intros (L & I & E); exists L; (split; [exact I|]); apply (over_pass lx ly h r (pl_z L) F); exact E.
Qed.

Lemma last_passive_covers ls lx ly : covers ls lx ly -> passives ls <> [] -> exists L, last_passive ls = Ok L /\ pl_lx L = lx /\ pl_ly L = ly.
Proof.
  intros C N. unfold last_passive. destruct (rev (passives ls)) as [|L t] eqn:E.
  - exfalso. apply N. rewrite <- (rev_involutive (passives ls)), E. reflexivity.
  - exists L. split; auto. apply C. apply in_rev. rewrite E. left; auto.
Qed.

Lemma check_layers_spec ls lx ly (C : covers ls lx ly) (cs : list go_case) (D : forall c, In c cs -> downwards c) :
  forall ps ok (s : go_case -> R) (b : batch unit), (ps <> [] -> passives ls <> []) -> length ok = length cs ->
  b_muons b = map (fun c => along c (s c)) cs ->
  check_layers ls ps ok b
  = Ok (map2 (fun o c => o || existsb (fun L => in_xy (Some (Fin 0, Fin 0)) (Some (Fin lx, Fin ly)) (at_height c (pl_z L))) ps) ok cs).
Proof.
  induction ps as [|L ps IH]; intros ok s b N Hl Hm.
  - cbn [check_layers existsb]. f_equal. clear -Hl. revert cs Hl. induction ok as [|o ok IH]; intros [|c cs] H; cbn in *; try discriminate; auto.
    rewrite orb_false_r, <- IH; auto.
  - cbn [check_layers].
    rewrite (propagate_dz_all (fun u => xsub (mz u) (Fin (pl_z L))) b). cbn [bind].
    destruct (last_passive_covers ls lx ly C (N ltac:(discriminate))) as (La & EL & Ex & Ey). rewrite EL. cbn [bind]. rewrite Ex, Ey.
    assert (map (fun u => go_dz1 (xsub (mz u) (Fin (pl_z L))) u) (b_muons b) = map (fun c => at_height c (pl_z L)) cs) as Em.
    { rewrite Hm, map_map. apply map_ext_in. intros c Hc. apply fly_to; auto. }
    rewrite Em. unfold get_xy_mask. cbn [b_muons with_muons].
    rewrite (IH _ (fun c => (g_z c - pl_z L) / cos (g_th c))).
    + f_equal. rewrite map_map. clear -Hl. revert cs Hl. induction ok as [|o ok IH]; intros [|c cs] H; cbn in *; try discriminate; auto.
      rewrite orb_assoc, IH; auto.
    + intros _. apply N. discriminate.
    + rewrite map2_length, !map_length. lia.
    + reflexivity.
Qed.
Lemma check_spec ls lx ly h rows (C : covers ls lx ly) : Forall flies rows ->
  check_mu_batch ls (Batch (map (fun r => pad_row r (Fin h)) rows) None [] []) = Ok (map (pass ls lx ly h) rows).
Proof.
  intro F. unfold check_mu_batch. rewrite copy_spec. cbn [bind b_muons].
  rewrite Forall_forall in F.
  rewrite (check_layers_spec ls lx ly C (map (case_of h) rows)) with (s := fun _ => 0).
  - f_equal. rewrite map_length. clear. induction rows as [|r rows IH]; [reflexivity|]. cbn [length repeat map map2]. f_equal. exact IH.
  - intros c Hc. apply in_map_iff in Hc as (r & <- & Hr). apply flies_case; auto.
  - auto.
  - rewrite repeat_length, !map_length. reflexivity.
  - cbn [b_muons]. rewrite map_map. apply map_ext_in. intros r Hr. apply flies_case; auto.
Qed.

(* ---------- one round ---------- *)
Lemma ok_round {A} (p : A -> bool) ok (l : list A) : length ok = length l ->
  put (negm ok) ok (map2 orb (select (negm ok) ok) (map p (select (negm ok) l))) = map2 (fun o r => o || p r) ok l.
Proof.
  revert l; induction ok as [|o ok IH]; intros [|a l] H; cbn in *; try discriminate; auto.
  injection H as H. destruct o; cbn; unfold negm in *; rewrite IH; auto.
Qed.
Lemma put_self {A} (p : A -> bool) (rows v : list A) : length v = count_true (negm (map p rows)) ->
  length (put (negm (map p rows)) rows v) = length rows
  /\ forall i r, nth_error rows i = Some r -> exists r', nth_error (put (negm (map p rows)) rows v) i = Some r' /\ if p r then r' = r else In r' v.
Proof.
  intro H. split; [apply put_length|]. revert v H. induction rows as [|a rows IH]; intros v H i r E; [destruct i; discriminate|].
  cbn in *. destruct (p a) eqn:P; cbn in *.
  - destruct i; cbn in *; [injection E as <-; exists a; rewrite P; auto|]. apply IH; auto.
  - destruct v as [|x v]; [discriminate|]. injection H as H.
    destruct i; cbn in *; [injection E as <-; exists x; rewrite P; auto|].
    destruct (IH v H i r E) as (r' & A1 & A2). exists r'. split; auto. destruct (p r); auto.
Qed.
Lemma put_round {A} (P : A -> A -> Prop) (ok : list bool) : forall (l w : list A), length ok = length l -> length w = count_true (negm ok) ->
  (forall i r, nth_error (select (negm ok) l) i = Some r -> exists r', nth_error w i = Some r' /\ P r r') ->
  forall i o r, nth_error ok i = Some o -> nth_error l i = Some r ->
  exists r', nth_error (put (negm ok) l w) i = Some r' /\ if o then r' = r else P r r'.
Proof.
  induction ok as [|o' ok IH]; intros [|a l] w Hl Hw Q i o r Eo Er; cbn in *; try discriminate; try (destruct i; discriminate).
  injection Hl as Hl. destruct o'; cbn in *.
  - destruct i; cbn in *; [injection Eo as <-; injection Er as <-; exists a; auto|]. apply IH; auto.
  - destruct w as [|x w]; [discriminate|]. injection Hw as Hw.
    destruct i; cbn in *.
    + injection Eo as <-; injection Er as <-. destruct (Q 0%nat a eq_refl) as (r' & E & Pr). cbn in E. injection E as <-. exists x; auto.
    + apply IH; auto. intros j r0 E0. apply (Q (S j) r0 E0).
Qed.

Section Rounds.
Variables (ls : list layer) (lx ly h : R) (gen : nat -> nat -> list row5).
Hypothesis C : covers ls lx ly.
Hypothesis Hh : vol_h ls = Ok h.
Hypothesis G : forall k n, length (gen k n) = n /\ Forall flies (gen k n).

Definition body (k : nat) (ok : list bool) (mus : list row5) : res (list bool * list row5) :=
  let check_mask := negm ok in
  rows <- bool_index check_mask mus ;;
  h <- vol_h ls ;;
  mu <- new_batch (H := unit) rows (Sc (Fin h)) ;;
  tmp <- check_mu_batch ls mu ;;
  let again := negm tmp in
  check <- bool_assign again rows (gen k (count_true again)) ;;
  mus <- bool_assign check_mask mus check ;;
  old <- bool_index check_mask ok ;;
  ok <- bool_assign check_mask ok (map2 orb old tmp) ;;
  Ok (ok, mus).

Lemma body_spec k ok mus : length ok = length mus -> Forall flies mus ->
  exists mus' n, body k ok mus = Ok (map2 (fun o r => o || pass ls lx ly h r) ok mus, mus')
    /\ length mus' = length mus
    /\ forall i o r, nth_error ok i = Some o -> nth_error mus i = Some r ->
         exists r', nth_error mus' i = Some r' /\ if o || pass ls lx ly h r then r' = r else In r' (gen k n).
Proof.
  intros Hl F. set (cm := negm ok).
  assert (length cm = length mus) as Hc by (unfold cm; rewrite negm_length; auto).
  set (rows := select cm mus).
  assert (length rows = count_true cm) as Hr by (apply select_length; auto).
  assert (Forall flies rows) as Fr by (rewrite Forall_forall in *; intros r I; apply F; eapply in_select; eauto).
  set (tmp := map (pass ls lx ly h) rows). set (n := count_true (negm tmp)).
  set (w := put (negm tmp) rows (gen k n)). set (mus' := put cm mus w).
  assert (length (gen k n) = n) as Hg by apply G.
  destruct (put_self (pass ls lx ly h) rows (gen k n) Hg) as [Hw W]. fold tmp in Hw, W. fold w in Hw, W.
  exists mus', n. split; [|split].
  - unfold body. fold cm. rewrite (bool_index_ok cm mus Hc). cbn [bind]. fold rows. rewrite Hh. cbn [bind new_batch].
    rewrite (check_spec ls lx ly h rows C Fr). cbn [bind]. fold tmp. fold n.
    rewrite (bool_assign_ok (negm tmp) rows); [|unfold tmp; rewrite negm_length, map_length; auto|exact Hg]. cbn [bind]. fold w.
    rewrite (bool_assign_ok cm mus w Hc); [|rewrite Hw; auto]. cbn [bind]. fold mus'.
    rewrite (bool_index_ok cm ok) by (unfold cm; apply negm_length). cbn [bind].
    rewrite (bool_assign_ok cm ok).
    + cbn [bind]. unfold cm, tmp, rows. rewrite ok_round by auto. reflexivity.
    + unfold cm. apply negm_length.
    + rewrite map2_length. unfold tmp. rewrite map_length, Hr, select_length by (unfold cm; apply negm_length). lia.
  - apply put_length.
  - intros i o r Eo Er.
    destruct (put_round (fun r r' => if pass ls lx ly h r then r' = r else In r' (gen k n)) ok mus w Hl ltac:(fold cm; rewrite Hw; auto) W i o r Eo Er)
      as (r' & E & Q). exists r'. split; [exact E|]. destruct o; auto.
Qed.

Lemma resample_body fuel k ok mus :
  resample ls gen (S fuel) k ok mus
  = if Nat.ltb (count_true ok) (length mus) then
      match body k ok mus with Err e => Some (Err e) | Ok (ok, mus) => resample ls gen fuel (S k) ok mus end
    else Some (Ok mus).
Proof. reflexivity. Qed.

Lemma resample_0 k ok mus : resample ls gen 0 k ok mus = if Nat.ltb (count_true ok) (length mus) then None else Some (Ok mus).
Proof. reflexivity. Qed.

Lemma all_true_nth ok i o : count_true ok = length ok -> nth_error ok i = Some o -> o = true.
Proof.
  intros E N. rewrite (count_true_full ok E) in N. apply nth_error_In in N. unfold all_true in N. apply repeat_spec in N. auto.
Qed.
Lemma nth_map2 {A B D} (f : A -> B -> D) l l' i a b : nth_error l i = Some a -> nth_error l' i = Some b -> nth_error (map2 f l l') i = Some (f a b).
Proof. revert l' i; induction l; intros [|] [|i]; cbn; intros; try discriminate; auto. congruence. Qed.
Lemma nth_some {A B} (l : list A) (l' : list B) i a : length l = length l' -> nth_error l i = Some a -> exists b, nth_error l' i = Some b.
Proof.
  intros H E. destruct (nth_error l' i) eqn:E'; eauto. exfalso. apply nth_error_None in E'.
  assert (nth_error l i <> None) as X by congruence. apply nth_error_Some in X. lia.
Qed.
Lemma body_flies k ok mus mus' : length ok = length mus -> length mus' = length mus -> Forall flies mus ->
  (forall i o r, nth_error ok i = Some o -> nth_error mus i = Some r ->
     exists r', nth_error mus' i = Some r' /\ exists n, if o || pass ls lx ly h r then r' = r else In r' (gen k n)) ->
  Forall flies mus'.
Proof.
  intros Hl Hl' F Q. rewrite Forall_forall in *. intros r' I. apply In_nth_error in I as [i E].
  destruct (nth_some mus' mus i r' Hl' E) as [r Er]. destruct (nth_some mus ok i r (eq_sym Hl) Er) as [o Eo].
  destruct (Q i o r Eo Er) as (r'' & E'' & n & X). rewrite E in E''. injection E'' as <-.
  destruct (o || pass ls lx ly h r).
  - subst r'. apply F. eapply nth_error_In; eauto.
  - destruct (G k n) as [_ Fg]. rewrite Forall_forall in Fg. auto.
Qed.

Lemma resample_spec : forall fuel k ok mus out, length ok = length mus -> Forall flies mus ->
  (forall i r, nth_error ok i = Some true -> nth_error mus i = Some r -> pass ls lx ly h r = true) ->
  resample ls gen fuel k ok mus = Some out ->
  exists rows, out = Ok rows /\ length rows = length mus
    /\ (forall i r, nth_error rows i = Some r -> flies r /\ pass ls lx ly h r = true)
    /\ (forall i o r, nth_error ok i = Some o -> nth_error mus i = Some r ->
          exists r', nth_error rows i = Some r'
            /\ (o || pass ls lx ly h r = true -> r' = r) /\ (r' = r \/ exists j n, In r' (gen j n))).
Proof.
  induction fuel as [|fuel IH]; intros k ok mus out Hl F I E.
  all: destruct (Nat.ltb (count_true ok) (length mus)) eqn:L.
  1: { rewrite resample_0, L in E. discriminate. }
  2: { rewrite resample_body, L in E.
       destruct (body_spec k ok mus Hl F) as (mus' & n & B & Hl' & Q). rewrite B in E.
       apply IH in E.
       - destruct E as (rows & -> & Hr & S1 & S2). exists rows. split; [auto|]. split; [congruence|]. split; [exact S1|].
         intros i o r Eo Er. destruct (Q i o r Eo Er) as (r1 & E1 & X).
         destruct (S2 i _ r1 (nth_map2 _ ok mus i o r Eo Er) E1) as (r' & E' & K & W). exists r'. split; [exact E'|].
         destruct (o || pass ls lx ly h r) eqn:D.
         + subst r1. rewrite orb_true_l in K. split; [auto|]. exact W.
         + split; [discriminate|]. destruct W as [->|W]; right; eauto.
       - rewrite map2_length. lia.
       - apply (body_flies k ok mus mus' Hl Hl' F). intros i o r Eo Er. destruct (Q i o r Eo Er) as (r' & A1 & A2). eauto.
       - intros i r' Eo E'. destruct (nth_some mus' mus i r' Hl' E') as [r Er].
         destruct (nth_some mus ok i r (eq_sym Hl) Er) as [o Eo'].
         destruct (Q i o r Eo' Er) as (r'' & E'' & X). rewrite E' in E''. injection E'' as <-.
         rewrite (nth_map2 _ ok mus i o r Eo' Er) in Eo. injection Eo as Eo. rewrite Eo in X. subst r'.
         destruct o; [apply (I i r Eo' Er)|exact Eo]. }
  all: assert (out = Ok mus) as -> by (rewrite ?resample_body, ?resample_0, L in E; congruence).
  all: apply Nat.ltb_ge in L; pose proof (count_true_le ok).
  all: exists mus; split; [auto|]; split; [auto|]; split.
  1,3: intros i r Er; split; [rewrite Forall_forall in F; apply F; eapply nth_error_In; eauto|];
       destruct (nth_some mus ok i r (eq_sym Hl) Er) as [o Eo]; rewrite (all_true_nth ok i o) in Eo by (auto; lia); eauto.
  all: intros i o r Eo Er; exists r; auto.
Qed.

(* if one of the calls of the generator gives only muons that pass, the loop ends *)
Lemma resample_ends k0 (P0 : forall n, Forall (fun r => pass ls lx ly h r = true) (gen k0 n)) :
  forall d k ok mus, k0 = (k + d)%nat -> length ok = length mus -> Forall flies mus ->
  resample ls gen (S (S d)) k ok mus <> None.
Proof.
  assert (acc : forall k ok mus, length ok = length mus -> Forall flies mus -> 
            (forall i r, nth_error ok i = Some false -> nth_error mus i = Some r -> pass ls lx ly h r = true) -> resample ls gen 1 k ok mus <> None).
  { intros k ok mus Hl F P. rewrite resample_body. destruct (Nat.ltb _ _); [|discriminate].
    destruct (body_spec k ok mus Hl F) as (mus' & n & -> & Hl' & Q).
    assert (count_true (map2 (fun o r => o || pass ls lx ly h r) ok mus) = length mus) as X.
    { clear -Hl P. revert mus Hl P. induction ok as [|o ok IH]; intros [|r mus] Hl P; cbn in *; try discriminate; auto.
      destruct o; cbn.
      - rewrite IH; auto. intros i r' A B. apply (P (S i) r' A B).
      - rewrite (P 0%nat r eq_refl eq_refl). rewrite IH; auto. intros i r' A B. apply (P (S i) r' A B). }
    rewrite resample_0, X, Hl', Nat.ltb_irrefl. discriminate. }
  induction d as [|d IH]; intros k ok mus Ek Hl F; rewrite resample_body; (destruct (Nat.ltb _ _); [|discriminate]);
    destruct (body_spec k ok mus Hl F) as (mus' & n & -> & Hl' & Q).
  - apply acc.
    + rewrite map2_length. lia.
    + apply (body_flies k ok mus mus' Hl Hl' F). intros i o r Eo Er. destruct (Q i o r Eo Er) as (r' & A1 & A2). eauto.
    + intros i r' Eo E'. destruct (nth_some mus' mus i r' Hl' E') as [r Er].
      destruct (nth_some mus ok i r (eq_sym Hl) Er) as [o Eo'].
      destruct (Q i o r Eo' Er) as (r'' & E'' & X). rewrite E' in E''. injection E'' as <-.
      rewrite (nth_map2 _ ok mus i o r Eo' Er) in Eo. injection Eo as Eo. rewrite Eo in X.
      specialize (P0 n). rewrite Forall_forall in P0. apply P0. replace k0 with k by lia. exact X.
  - apply IH; [lia|rewrite map2_length; lia|].
    apply (body_flies k ok mus mus' Hl Hl' F). intros i o r Eo Er. destruct (Q i o r Eo Er) as (r' & A1 & A2). eauto.
Qed.

(* without passive layers nothing passes and the loop never ends *)
Lemma resample_never : passives ls = [] -> forall fuel k ok mus, length ok = length mus -> Forall flies mus ->
  (count_true ok < length mus)%nat -> resample ls gen fuel k ok mus = None.
Proof.
  intros N. induction fuel as [|fuel IH]; intros k ok mus Hl F H.
  - rewrite resample_0. apply Nat.ltb_lt in H. rewrite H. reflexivity.
  - rewrite resample_body. pose proof H as H'. apply Nat.ltb_lt in H'. rewrite H'.
    destruct (body_spec k ok mus Hl F) as (mus' & n & -> & Hl' & Q).
    assert (map2 (fun o r => o || pass ls lx ly h r) ok mus = ok) as X.
    { clear -Hl N. revert mus Hl. induction ok as [|o ok IH]; intros [|r mus] Hl; cbn in *; try discriminate; auto.
      rewrite IH by lia. unfold pass. rewrite N. cbn. rewrite orb_false_r. reflexivity. }
    apply IH.
    + rewrite X. lia.
    + apply (body_flies k ok mus mus' Hl Hl' F). intros i o r Eo Er. destruct (Q i o r Eo Er) as (r' & A1 & A2). eauto.
    + rewrite X. lia.
Qed.
End Rounds.

(* ---------- bins ---------- *)
Lemma cut_spec a d (D : 0 < d) x k : forall n i,
  cut (map (fun j => a + INR j * d) (seq i (S n))) i x = Some k <-> (i <= k < i + n)%nat /\ a + INR k * d < x <= a + INR (S k) * d.
Proof.
  induction n as [|n IH]; intro i.
  - cbn. split; [discriminate|lia].
  - change (seq i (S (S n))) with (i :: seq (S i) (S n)). change (seq (S i) (S n)) with (S i :: seq (S (S i)) n) at 1. cbn [map cut].
    change (S i :: seq (S (S i)) n) with (seq (S i) (S n)).
    specialize (IH (S i)). change (seq (S i) (S n)) with (S i :: seq (S (S i)) n) in IH. cbn [map] in IH.
    destruct (Rltb (a + INR i * d) x && Rleb x (a + INR (S i) * d)) eqn:B.
    + apply andb_true_iff in B as [B1 B2]. apply Rltb_true in B1. apply Rleb_true in B2. split.
      * intro E. injection E as <-. split; [lia|lra].
      * intros [H1 [H2 H3]]. destruct (Nat.eq_dec k i) as [->|N]; auto. exfalso.
        assert (INR (S i) <= INR k) as X by (apply le_INR; lia). nra.
    + rewrite IH. split; intros [H1 H2]; (split; [|exact H2]).
      * lia.
      * destruct (Nat.eq_dec k i) as [->|N]; [|lia]. exfalso. apply andb_false_iff in B as [B|B].
        { apply Rltb_false in B. lra. } { apply Rleb_false in B. lra. }
Qed.
Lemma stacked_range ls up s n : stacked ls up s n -> passive_z_range ls = Ok (up - INR n * s, up).
Proof.
  intros (Hs & Hn & Hp & H). unfold passive_z_range, last_passive.
  destruct (passives ls) as [|L0 ps] eqn:E; [cbn in Hn; lia|].
  destruct (rev (L0 :: ps)) as [|L t] eqn:Er; [apply (f_equal (@length _)) in Er; rewrite rev_length in Er; discriminate|].
  cbn [bind].
  assert (nth_error (L0 :: ps) (n - 1) = Some L) as EL.
  { rewrite <- (rev_involutive (L0 :: ps)), Er. cbn [rev]. rewrite nth_error_app2; rewrite rev_length.
    - replace (n - 1 - length t)%nat with 0%nat; auto. apply (f_equal (@length _)) in Er. rewrite rev_length in Er. cbn in *. lia.
    - apply (f_equal (@length _)) in Er. rewrite rev_length in Er. cbn in *. lia. }
  destruct (H _ _ EL) as [Z1 Z2]. destruct (H 0%nat L0 eq_refl) as [Z3 Z4]. rewrite Z1, Z2, Z3. rewrite minus_INR by lia. cbn [INR]. f_equal. f_equal; lra.
Qed.
Lemma in_layer_iff ls up s n k z : stacked ls up s n ->
  (in_layer ls k z <-> (k < n)%nat /\ up - INR (S k) * s <= z < up - INR k * s).
Proof.
  intros (Hs & Hn & Hp & H). unfold in_layer. rewrite S_INR. split.
  - intros (L & E & B). destruct (H k L E) as [Z1 Z2]. rewrite Z1, Z2 in B. split; [|lra].
    rewrite <- Hn. apply nth_error_Some. congruence.
  - intros [Hk B]. destruct (nth_error (passives ls) k) as [L|] eqn:E; [|apply nth_error_None in E; lia].
    destruct (H k L E) as [Z1 Z2]. exists L. split; auto. rewrite Z1, Z2. lra.
Qed.
