(* Warm-up callbacks, followed through a fit. *)
From Coq Require Import Lia Bool.
From Verif Require Import Base.RUtil Model.Fit Model.Warmup Spec.FitSpec Spec.ReplaySpec Spec.WarmupSpec Proofs.FitP Proofs.FitCount Proofs.ReplayP.
Open Scope list_scope.
Open Scope nat_scope.

(* ---- items of a scan ---- *)
Definition in_scan (e : event) : bool :=
  match e with SetWrapper | TrainBegin | EpochBegin | EpochEnd | TrainEnd | PredBegin | PredEnd => false | _ => true end.
Definition scan_item {I P} (i : item I P) : Prop :=
  match i with Call _ e => in_scan e = true | SetTrain | SetEval => False | _ => True end.
Section Items.
Context {I P : Type}.
Variable c : cfg.
Lemma si_on e : in_scan e = true -> Forall scan_item (on c e : list (item I P)).
Proof. intros H. apply Forall_forall. intros x Hx. apply in_map_iff in Hx as [k [<- _]]. exact H. Qed.
Lemma si_flat {A} (f : A -> list (item I P)) l : (forall a, Forall scan_item (f a)) -> Forall scan_item (flat_map f l).
Proof. intros H. induction l as [|a l IH]; [constructor|]. cbn. apply Forall_app. auto. Qed.
Lemma si_vol (v : vol I P) : Forall scan_item (doc_vol c v).
Proof.
  unfold doc_vol, doc_mu. repeat first [ apply Forall_app; split | apply si_on; reflexivity | constructor; [exact Logic.I|] | constructor ].
  - generalize (c_n_mu c / c_mu_bs c). intros n. induction n as [|n IH]; [constructor|]. cbn [repeat concat]. apply Forall_app. split; [|exact IH].
    repeat first [ apply Forall_app; split | apply si_on; reflexivity | constructor; [exact Logic.I|] | constructor ].
  - destruct (v_loss v); repeat constructor.
Qed.
Lemma si_scan train skip (s : scan I P) : Forall scan_item (doc_scan c train skip s).
Proof.
  unfold doc_scan. apply Forall_app. split.
  - apply si_flat. intros vs. unfold doc_batch, doc_end, doc_update.
    repeat first [ apply Forall_app; split | apply si_on; reflexivity | apply si_flat; apply si_vol | constructor; [exact Logic.I|] | constructor
      | match goal with |- Forall _ (if ?x then _ else _) => destruct x | |- Forall _ (match ?x with _ => _ end) => destruct x end ].
  - destruct (sc_rest s); [constructor|]. apply Forall_app. split; [now apply si_on|]. apply si_flat. apply si_vol.
Qed.
End Items.
Section Replay.
Context {I P S : Type}.
Variable m : nat -> reaction S.
Lemma replay_app' (l r : list (item I P)) v : replay m v (l ++ r) = replay m (replay m v l) r.
Proof. apply fold_left_app. Qed.
Lemma replay_still v (l : list (item I P)) : Forall (fun i => replay1 m v i = v) l -> replay m v l = v.
Proof. induction 1 as [|i l H F IH]; [reflexivity|]. unfold replay in *. cbn. now rewrite H. Qed.
Lemma view_same (v : view S) : View (vw_mode v) (vw_epoch v) (vw_skip v) (vw_n_epochs v) (vw_bs v) (vw_st v) = v.
Proof. now destruct v. Qed.
Lemma still_scan : (forall k e v, in_scan e = true -> m k e v = same_as v) -> forall v (l : list (item I P)), Forall scan_item l -> replay m v l = v.
Proof.
  intros H v l F. apply replay_still. eapply Forall_impl; [|exact F]. intros i Hi. destruct i; cbn in Hi |- *; try reflexivity; try contradiction.
  rewrite (H _ _ _ Hi). cbn. apply view_same.
Qed.
(* all callbacks in turn *)
Definition calls (e : event) (ks : list nat) (v : view S) : view S := replay m v (map (fun k => Call k e) ks : list (item I P)).
Lemma calls_cons e k ks v : calls e (k :: ks) v = calls e ks (replay1 m v (Call k e : item I P)).
Proof. reflexivity. Qed.
Lemma calls_same e ks v : (forall k, m k e v = same_as v) -> calls e ks v = v.
Proof.
  intros H. unfold calls. apply replay_still. apply Forall_forall. intros x Hx. apply in_map_iff in Hx as [k [<- _]]. cbn. rewrite H. cbn. apply view_same.
Qed.
End Replay.

(* ---- states of the callbacks: warm-ups before the j-th are done, the j-th is on with count cc, later ones are to come; p: which post callbacks are on ---- *)
Fixpoint to_come (p : nat -> bool) (k : nat) (l : list slot) : list slot :=
  match l with
  | [] => []
  | SWarm n _ _ :: l => SWarm n 0 false :: to_come p (S k) l
  | SPost _ :: l => SPost (p k) :: to_come p (S k) l
  | SOther :: l => SOther :: to_come p (S k) l
  end.
Fixpoint build (j cc : nat) (p : nat -> bool) (k : nat) (l : list slot) : list slot :=
  match l with
  | [] => []
  | SWarm n _ _ :: l => match j with O => SWarm n cc true :: to_come p (S k) l | S j => SWarm n n false :: build j cc p (S k) l end
  | SPost _ :: l => SPost (p k) :: build j cc p (S k) l
  | SOther :: l => SOther :: build j cc p (S k) l
  end.
Lemma switch_to_come p l : forall k, switch_on (to_come p k l) = (build 0 0 p k l, 0 <? length (lengths l)).
Proof. induction l as [|[n c b|b|] l IH]; intros k; cbn [to_come build switch_on lengths length]; [reflexivity|reflexivity| |]; now rewrite IH. Qed.
Lemma check_to_come p l sk : forall k, check_warmups (to_come p k l) sk = (to_come p k l, sk).
Proof. induction l as [|[n c b|b|] l IH]; intros k; cbn [to_come check_warmups]; [reflexivity| | |]; now rewrite IH. Qed.
Lemma check_build p l sk : forall j cc k, (forall n, nth_error (lengths l) j = Some n -> cc <= n) -> check_warmups (build j cc p k l) sk =
  match nth_error (lengths l) j with
  | Some n => if n <=? cc then (build (S j) 0 p k l, if S j <? length (lengths l) then sk else false) else (build j cc p k l, sk)
  | None => (build j cc p k l, sk)
  end.
Proof.
  induction l as [|[n c b|b|] l IH]; intros j cc k Hcc; cbn [build lengths length] in *.
  - now destruct j.
  - destruct j as [|j]; cbn [nth_error check_warmups] in *.
    + destruct (Nat.leb_spec n cc) as [H|H]; [|now rewrite check_to_come]. rewrite switch_to_come. specialize (Hcc n eq_refl). replace cc with n by lia. reflexivity.
    + rewrite IH by exact Hcc. destruct (nth_error (lengths l) j); [|reflexivity]. destruct (n0 <=? cc); reflexivity.
  - cbn [check_warmups]. rewrite IH by exact Hcc. destruct (nth_error (lengths l) j); [|reflexivity]. destruct (n <=? cc); reflexivity.
  - cbn [check_warmups]. rewrite IH by exact Hcc. destruct (nth_error (lengths l) j); [|reflexivity]. destruct (n <=? cc); reflexivity.
Qed.
Lemma off_to_come p l : forall k, all_off (to_come p k l) = true.
Proof. unfold all_off. induction l as [|[n c b|b|] l IH]; intros k; cbn; auto. Qed.
Lemma off_build p l : forall j cc k, all_off (build j cc p k l) = (length (lengths l) <=? j).
Proof. unfold all_off. induction l as [|[n c b|b|] l IH]; intros j cc k; cbn; [reflexivity| | |]; auto. destruct j as [|j]; [reflexivity|]. cbn. apply IH. Qed.
Definition shape (s t : slot) : Prop :=
  match s, t with SWarm n _ _, SWarm n' _ _ => n = n' | SPost _, SPost _ | SOther, SOther => True | _, _ => False end.
Lemma nth_to_come p l : forall k i s, nth_error l i = Some s ->
  nth_error (to_come p k l) i = Some (match s with SWarm n _ _ => SWarm n 0 false | SPost _ => SPost (p (k + i)) | SOther => SOther end).
Proof.
  induction l as [|x l IH]; intros k [|i] s; try discriminate.
  - intros [= ->]. destruct s; cbn; rewrite ?Nat.add_0_r; reflexivity.
  - cbn. intros H. specialize (IH (S k) i s H). replace (S k + i) with (k + S i) in IH by lia. destruct x; exact IH.
Qed.
(* the warm-up at place i is number t *)
Lemma nth_build p l : forall j cc k i s, nth_error l i = Some s ->
  nth_error (build j cc p k l) i = Some (match s with
    | SWarm n _ _ => let t := length (lengths (firstn i l)) in if t <? j then SWarm n n false else if t =? j then SWarm n cc true else SWarm n 0 false
    | SPost _ => SPost (p (k + i)) | SOther => SOther end).
Proof.
  induction l as [|x l IH]; intros j cc k [|i] s; try discriminate.
  - intros [= ->]. destruct s as [n c b|b|]; cbn [build]; rewrite ?Nat.add_0_r; try reflexivity. destruct j; reflexivity.
  - cbn [nth_error firstn]. intros H. destruct x as [n c b|b|]; cbn [build lengths length].
    + destruct j as [|j].
      * cbn [nth_error]. rewrite (nth_to_come p l (S k) i s H). replace (S k + i) with (k + S i) by lia. destruct s; reflexivity.
      * cbn [nth_error]. rewrite (IH j cc (S k) i s H). replace (S k + i) with (k + S i) by lia. destruct s; reflexivity.
    + cbn [nth_error]. rewrite (IH j cc (S k) i s H). replace (S k + i) with (k + S i) by lia. destruct s; reflexivity.
    + cbn [nth_error]. rewrite (IH j cc (S k) i s H). replace (S k + i) with (k + S i) by lia. destruct s; reflexivity.
Qed.
Definition upd (p : nat -> bool) (k : nat) (b : bool) : nat -> bool := fun i => if i =? k then b else p i.
Lemma to_come_ext p q l : forall k, (forall i, k <= i -> p i = q i) -> to_come p k l = to_come q k l.
Proof.
  induction l as [|x l IH]; intros k H; [reflexivity|]. cbn. rewrite (IH (S k)) by (intros; apply H; lia). rewrite (H k) by lia. reflexivity.
Qed.
Lemma build_ext p q l : forall j cc k, (forall i, k <= i -> p i = q i) -> build j cc p k l = build j cc q k l.
Proof.
  induction l as [|x l IH]; intros j cc k H; [reflexivity|]. cbn. destruct x.
  - destruct j; [now rewrite (to_come_ext p q) by (intros; apply H; lia)|]. now rewrite (IH _ _ (S k)) by (intros; apply H; lia).
  - rewrite (IH _ _ (S k)) by (intros; apply H; lia). now rewrite (H k) by lia.
  - now rewrite (IH _ _ (S k)) by (intros; apply H; lia).
Qed.
Lemma set_to_come p l b : forall k i s, nth_error l i = Some (SPost s) -> set_at i (SPost b) (to_come p k l) = to_come (upd p (k + i) b) k l.
Proof.
  induction l as [|x l IH]; intros k [|i] s; try discriminate.
  - intros [= ->]. cbn. unfold upd at 1. rewrite Nat.add_0_r, Nat.eqb_refl. f_equal. apply to_come_ext. intros i Hi. unfold upd. destruct (Nat.eqb_spec i k); [lia|reflexivity].
  - cbn [nth_error]. intros H. specialize (IH (S k) i s H). replace (S k + i) with (k + S i) in IH by lia.
    destruct x; cbn; rewrite IH; try reflexivity. unfold upd at 2. destruct (Nat.eqb_spec k (k + S i)); [lia|reflexivity].
Qed.
Lemma set_build p l b : forall j cc k i s, nth_error l i = Some (SPost s) -> set_at i (SPost b) (build j cc p k l) = build j cc (upd p (k + i) b) k l.
Proof.
  induction l as [|x l IH]; intros j cc k [|i] s; try discriminate.
  - intros [= ->]. cbn. unfold upd at 1. rewrite Nat.add_0_r, Nat.eqb_refl. f_equal. apply build_ext. intros i Hi. unfold upd. destruct (Nat.eqb_spec i k); [lia|reflexivity].
  - cbn [nth_error]. intros H. specialize (IH j cc (S k) i s H) as IH'. replace (S k + i) with (k + S i) in IH' by lia.
    destruct x; cbn.
    + destruct j as [|j].
      * cbn. rewrite (set_to_come p l b (S k) i s H). now replace (S k + i) with (k + S i) by lia.
      * cbn. rewrite (IH j cc (S k) i s H). now replace (S k + i) with (k + S i) by lia.
    + rewrite IH'. unfold upd at 2. destruct (Nat.eqb_spec k (k + S i)); [lia|reflexivity].
    + now rewrite IH'.
Qed.
Lemma set_app pre x y l : set_at (length pre) x (pre ++ y :: l) = pre ++ x :: l.
Proof. induction pre as [|z pre IH]; [reflexivity|]. cbn. now rewrite IH. Qed.
Lemma nth_app_mid {A} (pre : list A) y l : nth_error (pre ++ y :: l) (length pre) = Some y.
Proof. induction pre as [|z pre IH]; [reflexivity|]. exact IH. Qed.

Lemma nth_mid {A} (pre : list A) y l k : k = length pre -> nth_error (pre ++ y :: l) k = Some y. Proof. intros ->. apply nth_app_mid. Qed.
Lemma set_mid pre x y l k : k = length pre -> set_at k x (pre ++ y :: l) = pre ++ x :: l. Proof. intros ->. apply set_app. Qed.

(* ---- on_train_begin ---- *)
Definition off : nat -> bool := fun _ => false.
Lemma to_come_app p a : forall k b, to_come p k (a ++ b) = to_come p k a ++ to_come p (k + length a) b.
Proof.
  induction a as [|x a IH]; intros k b; cbn [app to_come length]; [now rewrite Nat.add_0_r|]. rewrite (IH (S k) b). replace (S k + length a) with (k + S (length a)) by lia.
  now destruct x.
Qed.
Lemma build0_app p a : forall k b, build 0 0 p k (a ++ b) =
  build 0 0 p k a ++ (if 0 <? length (lengths a) then to_come p (k + length a) b else build 0 0 p (k + length a) b).
Proof.
  induction a as [|x a IH]; intros k b; cbn [app build length lengths]; [now rewrite Nat.add_0_r|].
  destruct x; cbn [lengths length].
  - rewrite to_come_app. replace (S k + length a) with (k + S (length a)) by lia. reflexivity.
  - rewrite (IH (S k) b). replace (S k + length a) with (k + S (length a)) by lia. reflexivity.
  - rewrite (IH (S k) b). replace (S k + length a) with (k + S (length a)) by lia. reflexivity.
Qed.
Lemma switch_build p a : forall k b, 0 < length (lengths a) -> fst (switch_on (build 0 0 p k a ++ b)) = build 0 0 p k a ++ b.
Proof.
  induction a as [|x a IH]; intros k b; cbn [lengths length]; [lia|]. destruct x; cbn [lengths length build app switch_on]; intros H.
  - reflexivity.
  - specialize (IH (S k) b H). destruct (switch_on _). cbn in *. now rewrite IH.
  - specialize (IH (S k) b H). destruct (switch_on _). cbn in *. now rewrite IH.
Qed.
Lemma switch_none p a : forall k n c on b, length (lengths a) = 0 -> fst (switch_on (build 0 0 p k a ++ SWarm n c on :: b)) = build 0 0 p k a ++ SWarm n c true :: b.
Proof.
  induction a as [|x a IH]; intros k n c on b; cbn [lengths length]; [reflexivity|]. destruct x; cbn [lengths length build app switch_on]; intros H; [lia| |].
  - specialize (IH (S k) n c on b H). destruct (switch_on _). cbn in *. now rewrite IH.
  - specialize (IH (S k) n c on b H). destruct (switch_on _). cbn in *. now rewrite IH.
Qed.
Lemma lengths_app a b : lengths (a ++ b) = lengths a ++ lengths b.
Proof. induction a as [|[n c o|o|] a IH]; cbn; rewrite ?IH; reflexivity. Qed.
Lemma build_len p l : forall j cc k, length (build j cc p k l) = length l.
Proof.
  assert (H : forall l k, length (to_come p k l) = length l) by (intros l0; induction l0 as [|[n c o|o|] l0 IH]; intros k; cbn; auto).
  induction l as [|[n c o|o|] l IH]; intros j cc k; cbn; auto. destruct j; cbn; auto.
Qed.
Lemma warm_cb_eq k e v : warm_cb k e v =
  let l := vw_st v in
  match nth_error l k, e with
  | Some (SWarm n _ _), TrainBegin => Ok (true, fst (switch_on (set_at k (SWarm n 0 false) l)))
  | Some (SWarm _ _ _), EpochBegin =>
      if in_train v then let (l, skip) := check_warmups l (vw_skip v) in Ok (skip, l) else same_as v
  | Some (SWarm n c true), EpochEnd => if in_train v then Ok (vw_skip v, set_at k (SWarm n (S c) true) l) else same_as v
  | Some (SPost _), TrainBegin => Ok (vw_skip v, set_at k (SPost false) l)
  | Some (SPost false), EpochBegin =>
      if (in_train v && all_off l)%bool then Ok (vw_skip v, set_at k (SPost true) l) else same_as v
  | _, _ => same_as v
  end.
Proof. reflexivity. Qed.
Section Begin.
Context {I P : Type}.
Lemma train_begin : forall suf pre md ep sk ne bs,
  @calls I P _ warm_cb TrainBegin (seq (length pre) (length suf)) (View md ep sk ne bs (build 0 0 off 0 pre ++ suf)) =
  View md ep (if 0 <? length (lengths suf) then true else sk) ne bs (build 0 0 off 0 (pre ++ suf)).
Proof.
  induction suf as [|x suf IH]; intros pre md ep sk ne bs.
  - cbn. now rewrite !app_nil_r.
  - cbn [length seq]. rewrite calls_cons. cbn [replay1]. rewrite warm_cb_eq. cbv zeta. cbn [vw_st vw_skip vw_mode vw_epoch vw_n_epochs vw_bs].
    rewrite nth_mid by (now rewrite build_len).
    replace (pre ++ x :: suf) with ((pre ++ [x]) ++ suf) by (now rewrite <- app_assoc).
    assert (Hl : length (pre ++ [x]) = S (length pre)) by (rewrite app_length; cbn; lia).
    specialize (IH (pre ++ [x])). rewrite Hl in IH. rewrite build0_app in IH. cbn [plus] in IH.
    destruct x as [n c o|o|]; cbn [lengths length].
    + rewrite set_mid by (now rewrite build_len).
      assert (Hs : fst (switch_on (build 0 0 off 0 pre ++ SWarm n 0 false :: suf)) =
        (build 0 0 off 0 pre ++ (if 0 <? length (lengths pre) then to_come off (length pre) [SWarm n c o] else build 0 0 off (length pre) [SWarm n c o])) ++ suf).
      { destruct (Nat.ltb_spec 0 (length (lengths pre))) as [H|H]; [rewrite switch_build by exact H|rewrite switch_none by lia]; now rewrite <- app_assoc. }
      rewrite Hs. destruct o; cbv beta iota; rewrite IH; destruct (0 <? length (lengths suf)); reflexivity.
    + rewrite set_mid by (now rewrite build_len).
      replace (build 0 0 off 0 pre ++ SPost false :: suf) with
        ((build 0 0 off 0 pre ++ (if 0 <? length (lengths pre) then to_come off (length pre) [SPost o] else build 0 0 off (length pre) [SPost o])) ++ suf);
        [try (destruct o; [|]); cbv beta iota; apply IH|]. destruct (0 <? length (lengths pre)); now rewrite <- app_assoc.
    + cbn [same_as vw_skip vw_st].
      replace (build 0 0 off 0 pre ++ SOther :: suf) with
        ((build 0 0 off 0 pre ++ (if 0 <? length (lengths pre) then to_come off (length pre) [SOther] else build 0 0 off (length pre) [SOther])) ++ suf);
        [try (destruct o; [|]); cbv beta iota; apply IH|]. destruct (0 <? length (lengths pre)); now rewrite <- app_assoc.
Qed.

(* ---- on_epoch_end of a training epoch ---- *)
Lemma push {A} (pre : list A) y : length (pre ++ [y]) = S (length pre).
Proof. rewrite app_length. cbn. lia. Qed.
Lemma shift {A} (pre : list A) y l : pre ++ y :: l = (pre ++ [y]) ++ l.
Proof. now rewrite <- app_assoc. Qed.
Lemma end_come p : forall suf pre ep sk ne bs,
  @calls I P _ warm_cb EpochEnd (seq (length pre) (length suf)) (View (Some Train) ep sk ne bs (pre ++ to_come p (length pre) suf)) =
  View (Some Train) ep sk ne bs (pre ++ to_come p (length pre) suf).
Proof.
  induction suf as [|x suf IH]; intros pre ep sk ne bs; [reflexivity|].
  cbn [length seq]. rewrite calls_cons. cbn [replay1]. rewrite warm_cb_eq. cbv zeta. cbn [vw_st vw_skip vw_mode vw_epoch vw_n_epochs vw_bs to_come].
  assert (G : forall y, @calls I P _ warm_cb EpochEnd (seq (S (length pre)) (length suf)) (View (Some Train) ep sk ne bs (pre ++ y :: to_come p (S (length pre)) suf)) =
    View (Some Train) ep sk ne bs (pre ++ y :: to_come p (S (length pre)) suf)).
  { intros y. rewrite (shift pre y (to_come _ _ _)), <- (push pre y). apply IH. }
  destruct x as [n c o|o|]; rewrite nth_app_mid; cbn [same_as vw_skip vw_st]; [apply G| |apply G].
  destruct (p (length pre)); cbn [same_as vw_skip vw_st]; apply G.
Qed.
Lemma epoch_end p : forall suf j cc pre ep sk ne bs,
  @calls I P _ warm_cb EpochEnd (seq (length pre) (length suf)) (View (Some Train) ep sk ne bs (pre ++ build j cc p (length pre) suf)) =
  View (Some Train) ep sk ne bs (pre ++ build j (S cc) p (length pre) suf).
Proof.
  induction suf as [|x suf IH]; intros j cc pre ep sk ne bs; [reflexivity|].
  cbn [length seq]. rewrite calls_cons. cbn [replay1]. rewrite warm_cb_eq. cbv zeta. cbn [vw_st vw_skip vw_mode vw_epoch vw_n_epochs vw_bs build].
  assert (G : forall j y, @calls I P _ warm_cb EpochEnd (seq (S (length pre)) (length suf)) (View (Some Train) ep sk ne bs (pre ++ y :: build j cc p (S (length pre)) suf)) =
    View (Some Train) ep sk ne bs (pre ++ y :: build j (S cc) p (S (length pre)) suf)).
  { intros j' y. rewrite (shift pre y (build j' cc _ _ _)), (shift pre y (build j' (S cc) _ _ _)), <- (push pre y). apply IH. }
  destruct x as [n c o|o|]; [destruct j as [|j]|..]; rewrite nth_app_mid.
  - unfold in_train. cbn [vw_mode is_train]. rewrite set_app, (shift pre _ (to_come _ _ _)), <- (push pre (SWarm n (S cc) true)). apply end_come.
  - apply G.
  - destruct (p (length pre)); apply G.
  - apply G.
Qed.
End Begin.

(* ---- on_epoch_begin of a training epoch ---- *)
Lemma to_come_post p q l : forall k, (forall i b, nth_error l i = Some (SPost b) -> p (k + i) = q (k + i)) -> to_come p k l = to_come q k l.
Proof.
  induction l as [|x l IH]; intros k H; [reflexivity|]. cbn. rewrite (IH (S k)) by (intros i b Hi; specialize (H (S i) b Hi); now rewrite <- plus_n_Sm in H).
  destruct x as [| b|]; try reflexivity. specialize (H 0 b eq_refl). rewrite Nat.add_0_r in H. now rewrite H.
Qed.
Lemma build_post p q l : forall j cc k, (forall i b, nth_error l i = Some (SPost b) -> p (k + i) = q (k + i)) -> build j cc p k l = build j cc q k l.
Proof.
  induction l as [|x l IH]; intros j cc k H; [reflexivity|]. cbn.
  assert (H' : forall i b, nth_error l i = Some (SPost b) -> p (S k + i) = q (S k + i)) by (intros i b Hi; specialize (H (S i) b Hi); now rewrite <- plus_n_Sm in H).
  destruct x as [| b|].
  - destruct j; [now rewrite (to_come_post p q) by exact H'|]. now rewrite IH by exact H'.
  - rewrite IH by exact H'. specialize (H 0 b eq_refl). rewrite Nat.add_0_r in H. now rewrite H.
  - now rewrite IH by exact H'.
Qed.
Definition adv (ns : list nat) (s : nat * nat) : nat * nat :=
  match nth_error ns (fst s) with Some n => if n <=? snd s then (S (fst s), 0) else s | None => s end.
Fixpoint advs (ns : list nat) (t : nat) (s : nat * nat) : nat * nat := match t with O => s | S t => adv ns (advs ns t s) end.
Definition okc (ns : list nat) (s : nat * nat) : Prop := forall n, nth_error ns (fst s) = Some n -> snd s <= n.
Lemma okc_adv ns s : okc ns s -> okc ns (adv ns s).
Proof. intros H. unfold adv. destruct (nth_error ns (fst s)) eqn:E; [|exact H]. destruct (n <=? snd s) eqn:L; [unfold okc; cbn; lia|exact H]. Qed.
Lemma okc_advs ns t s : okc ns s -> okc ns (advs ns t s).
Proof. intros H. induction t as [|t IH]; [exact H|]. cbn. now apply okc_adv. Qed.
Definition before (l : list slot) (k : nat) : nat := length (lengths (firstn k l)).
Definition posts (l : list slot) (s : nat * nat) (p : nat -> bool) : nat -> bool :=
  fun k => p k || (length (lengths l) <=? fst (advs (lengths l) (before l k) s)).
Lemma firstn_snoc {A} (l : list A) k x : nth_error l k = Some x -> firstn (S k) l = firstn k l ++ [x].
Proof. revert l. induction k as [|k IH]; intros [|y l]; try discriminate; cbn; [now intros [= ->]|]. intros H. now rewrite <- IH. Qed.
Section EBegin.
Context {I P : Type}.
Lemma calls_snoc {St} (m : nat -> reaction St) e ks k v : @calls I P _ m e (ks ++ [k]) v = replay1 m (@calls I P _ m e ks v) (Call k e : item I P).
Proof. unfold calls. rewrite map_app, replay_app'. reflexivity. Qed.
Lemma epoch_begin l s p ep ne bs : okc (lengths l) s -> forall k, k <= length l ->
  @calls I P _ warm_cb EpochBegin (seq 0 k) (View (Some Train) ep (fst s <? length (lengths l)) ne bs (build (fst s) (snd s) p 0 l)) =
  let s' := advs (lengths l) (before l k) s in
  View (Some Train) ep (fst s' <? length (lengths l)) ne bs (build (fst s') (snd s') (fun i => if i <? k then posts l s p i else p i) 0 l).
Proof.
  intros Ho. induction k as [|k IH]; intros Hk.
  - cbn -[Nat.ltb build]. f_equal.
  - rewrite seq_S. cbn [plus]. rewrite calls_snoc, IH by lia. clear IH. cbv zeta.
    destruct (nth_error l k) as [x|] eqn:Ex; [|apply nth_error_None in Ex; lia].
    unfold before. rewrite (firstn_snoc _ _ _ Ex), lengths_app, app_length.
    set (w := length (lengths (firstn k l))). set (s1 := advs (lengths l) w s).
    assert (Ho1 : okc (lengths l) s1) by now apply okc_advs.
    set (pk := fun i => if i <? k then posts l s p i else p i).
    assert (Hpk : (forall b, x <> SPost b) -> forall j cc, build j cc pk 0 l = build j cc (fun i => if i <? S k then posts l s p i else p i) 0 l).
    { intros Hx j cc. apply build_post. intros i b Hi. cbn [plus]. unfold pk. destruct (Nat.ltb_spec i k), (Nat.ltb_spec i (S k)); try reflexivity; try lia.
      replace i with k in * by lia. rewrite Ex in Hi. injection Hi as ->. now specialize (Hx b). }
    cbn [replay1]. rewrite warm_cb_eq. cbv zeta. cbn [vw_st vw_skip vw_mode vw_epoch vw_n_epochs vw_bs].
    rewrite (nth_build pk l (fst s1) (snd s1) 0 k x Ex). unfold in_train. cbn [vw_mode is_train plus].
    destruct x as [n c o|o|]; cbn [lengths length].
    + rewrite Nat.add_1_r. cbn [advs]. fold s1. fold w.
      assert (G : check_warmups (build (fst s1) (snd s1) pk 0 l) (fst s1 <? length (lengths l)) =
        (build (fst (adv (lengths l) s1)) (snd (adv (lengths l) s1)) pk 0 l, fst (adv (lengths l) s1) <? length (lengths l))).
      { rewrite check_build by exact Ho1. unfold adv. destruct (nth_error (lengths l) (fst s1)) as [m|] eqn:Em; [|reflexivity].
        destruct (m <=? snd s1); [|reflexivity]. cbn [fst snd]. f_equal. 
        assert (Hl : fst s1 < length (lengths l)) by (apply nth_error_Some; congruence).
        destruct (Nat.ltb_spec (S (fst s1)) (length (lengths l))); [|reflexivity]. now apply Nat.ltb_lt. }
      rewrite <- Hpk by discriminate.
      destruct (w <? fst s1); [|destruct (w =? fst s1)]; cbv iota beta; rewrite G; reflexivity.
    + rewrite Nat.add_0_r. fold s1.
      assert (Hq : build (fst s1) (snd s1) (fun i => if i <? S k then posts l s p i else p i) 0 l = set_at k (SPost (posts l s p k)) (build (fst s1) (snd s1) pk 0 l)).
      { rewrite (set_build pk l _ _ _ 0 k o Ex). cbn [plus]. apply build_post. intros i b _. cbn [plus]. unfold upd, pk.
        destruct (Nat.eqb_spec i k) as [->|N]; [now rewrite (proj2 (Nat.ltb_lt k (S k))) by lia|].
        destruct (Nat.ltb_spec i k), (Nat.ltb_spec i (S k)); try reflexivity; lia. }
      rewrite Hq. assert (Hp : pk k = p k) by (unfold pk; now rewrite Nat.ltb_irrefl). rewrite Hp.
      assert (Hs : forall b, nth_error (build (fst s1) (snd s1) pk 0 l) k = Some b -> set_at k b (build (fst s1) (snd s1) pk 0 l) = build (fst s1) (snd s1) pk 0 l).
      { generalize (build (fst s1) (snd s1) pk 0 l). clear. intros l. revert k. induction l as [|y l IH]; intros [|k] b; try discriminate; cbn; [now intros [= ->]|]. intros H. now rewrite IH. }
      specialize (Hs (SPost (p k))). rewrite (nth_build pk l (fst s1) (snd s1) 0 k _ Ex) in Hs. cbn [plus] in Hs. rewrite Hp in Hs. specialize (Hs eq_refl).
      unfold posts, before. fold w. fold s1. destruct (p k) eqn:Epk; cbn [orb]; [rewrite Hs; reflexivity|].
      cbn [andb]. rewrite off_build. destruct (length (lengths l) <=? fst s1); [reflexivity|]. rewrite Hs. reflexivity.
    + rewrite Nat.add_0_r. fold s1. rewrite <- Hpk by discriminate. reflexivity.
Qed.
End EBegin.

(* ---- counting epochs ---- *)
Definition good (ns : list nat) (i : nat) (s : nat * nat) : Prop :=
  fst s <= length ns /\
  (forall n, nth_error ns (fst s) = Some n -> list_sum (firstn (fst s) ns) + snd s = i /\ snd s <= n) /\
  (nth_error ns (fst s) = None -> list_sum ns <= i).
Definition settled (ns : list nat) (s : nat * nat) : Prop := forall n, nth_error ns (fst s) = Some n -> snd s < n.
Lemma good_okc ns i s : good ns i s -> okc ns s.
Proof. intros (_ & H & _) n Hn. now apply H. Qed.
Lemma sum_snoc ns j n : nth_error ns j = Some n -> list_sum (firstn (S j) ns) = list_sum (firstn j ns) + n.
Proof. intros H. rewrite (firstn_snoc _ _ _ H), list_sum_app. cbn. lia. Qed.
Lemma good_adv ns i s : good ns i s -> good ns i (adv ns s).
Proof.
  intros G. unfold adv. destruct (nth_error ns (fst s)) as [n|] eqn:E; [|exact G]. destruct (Nat.leb_spec n (snd s)) as [L|L]; [|exact G].
  destruct G as (_ & G & _). destruct (G n E) as [G1 G2]. assert (Hl : fst s < length ns) by (apply nth_error_Some; congruence).
  pose proof (sum_snoc _ _ _ E) as Hs. split; [cbn [fst]; lia|]. cbn [fst snd]. split.
  - intros m Hm. split; lia.
  - intros Hn. apply nth_error_None in Hn. rewrite <- (firstn_all ns). replace (length ns) with (S (fst s)) by lia. lia.
Qed.
Lemma good_advs ns i t s : good ns i s -> good ns i (advs ns t s).
Proof. intros H. induction t as [|t IH]; [exact H|]. cbn. now apply good_adv. Qed.
Lemma adv_le ns s : fst s <= fst (adv ns s).
Proof. unfold adv. destruct (nth_error ns (fst s)); [|lia]. destruct (n <=? snd s); cbn; lia. Qed.
Lemma advs_le ns t s : fst s <= fst (advs ns t s).
Proof. induction t as [|t IH]; cbn; [lia|]. eapply Nat.le_trans; [exact IH|apply adv_le]. Qed.
Lemma adv_settled ns s : settled ns s -> adv ns s = s.
Proof. intros H. unfold adv. destruct (nth_error ns (fst s)) as [n|] eqn:E; [|reflexivity]. specialize (H n E). destruct (Nat.leb_spec n (snd s)); [lia|reflexivity]. Qed.
Lemma advs_or ns t s : settled ns (advs ns t s) \/ fst (advs ns t s) = fst s + t.
Proof.
  induction t as [|t IH]; [right; cbn; lia|]. cbn [advs]. destruct IH as [IH|IH]; [left; now rewrite adv_settled|].
  unfold adv. destruct (nth_error ns (fst (advs ns t s))) as [n|] eqn:E; [|left; unfold settled; rewrite E; discriminate].
  destruct (Nat.leb_spec n (snd (advs ns t s))) as [L|L].
  - right. cbn [fst]. lia.
  - left. intros m Hm. rewrite E in Hm. now injection Hm as <-.
Qed.
Lemma advs_settled ns s : settled ns (advs ns (length ns) s).
Proof.
  destruct (advs_or ns (length ns) s) as [H|H]; [exact H|]. intros n Hn. assert (fst (advs ns (length ns) s) < length ns) by (apply nth_error_Some; congruence). lia.
Qed.
Lemma adv_pos ns s : Forall (fun n => 0 < n) ns -> settled ns (adv ns s).
Proof.
  intros F. unfold adv. destruct (nth_error ns (fst s)) as [n|] eqn:E; [|intros m Hm; congruence].
  destruct (Nat.leb_spec n (snd s)) as [L|L].
  - intros m Hm. cbn [fst snd] in *. rewrite Forall_forall in F. apply F. eapply nth_error_In; eauto.
  - intros m Hm. now rewrite E in Hm; injection Hm as <-.
Qed.
Lemma sum_firstn_le ns j : list_sum (firstn j ns) <= list_sum ns.
Proof. rewrite <- (firstn_skipn j ns) at 2. rewrite list_sum_app. lia. Qed.
Lemma sum_firstn_mono ns j k : j <= k -> list_sum (firstn j ns) <= list_sum (firstn k ns).
Proof. intros H. replace j with (min j k) by lia. rewrite <- firstn_firstn. apply sum_firstn_le. Qed.
Lemma good_settled ns i s : good ns i s -> settled ns s -> (length ns <=? fst s) = (list_sum ns <=? i).
Proof.
  intros (_ & G & N) H. destruct (nth_error ns (fst s)) as [n|] eqn:E.
  - destruct (G n eq_refl) as [G1 G2]. assert (fst s < length ns) by (apply nth_error_Some; congruence). specialize (H n E).
    pose proof (sum_snoc _ _ _ E). pose proof (sum_firstn_le ns (S (fst s))). rewrite (proj2 (Nat.leb_gt _ _)) by lia. symmetry. apply Nat.leb_gt. lia.
  - specialize (N eq_refl). apply nth_error_None in E. rewrite (proj2 (Nat.leb_le _ _)) by lia. symmetry. now apply Nat.leb_le.
Qed.
Lemma good_none ns i s : good ns i s -> length ns <= fst s -> list_sum ns <= i.
Proof. intros (_ & _ & N) H. apply N. now apply nth_error_None. Qed.

Definition post_ok (l : list slot) (i : nat) (p : nat -> bool) : Prop := forall k,
  let T := total l in let w := before l k in
  (p k = true -> T < i) /\ (S T < i -> p k = true) /\ (w = length (lengths l) -> p k = (T <? i)) /\
  (Forall (fun n => 0 < n) (lengths l) -> p k = if ((0 <? length (lengths l)) && (w =? 0))%bool then S T <? i else T <? i).
Lemma no_len ns : length ns = 0 -> list_sum ns = 0.
Proof. now destruct ns. Qed.
Lemma post_step l i s p : good (lengths l) i s -> (0 < length (lengths l) -> (length (lengths l) <=? fst s) = (total l <? i)) ->
  post_ok l i p -> post_ok l (S i) (posts l s p).
Proof.
  intros G HK HP k. cbv zeta. specialize (HP k). cbv zeta in HP. destruct HP as (P1 & P2 & P3 & P4). unfold total, posts in *.
  set (ns := lengths l) in *. set (w := before l k) in *. pose proof (good_advs ns i w s G) as Gw.
  pose proof (advs_le ns w s) as Hle. split; [|split; [|split]].
  - intros H. apply orb_prop in H. destruct H as [H|H]; [specialize (P1 H); lia|]. apply Nat.leb_le in H. apply (good_none _ _ _ Gw) in H. lia.
  - intros H. apply orb_true_intro. right. apply Nat.leb_le. destruct (Nat.eq_dec (length ns) 0) as [Z|Z]; [lia|].
    specialize (HK ltac:(lia)). rewrite (proj2 (Nat.ltb_lt _ _)) in HK by lia. apply Nat.leb_le in HK. lia.
  - intros Hw. rewrite (P3 Hw). rewrite (good_settled _ _ _ Gw) by (rewrite Hw; apply advs_settled).
    destruct (Nat.ltb_spec (list_sum ns) i), (Nat.leb_spec (list_sum ns) i), (Nat.ltb_spec (list_sum ns) (S i)); try reflexivity; lia.
  - intros F. rewrite (P4 F). destruct (Nat.ltb_spec 0 (length ns)) as [Z|Z]; cbn [andb].
    + destruct (Nat.eqb_spec w 0) as [W|W].
      * rewrite W. cbn [advs]. rewrite (HK Z).
        destruct (Nat.ltb_spec (S (list_sum ns)) i), (Nat.ltb_spec (list_sum ns) i), (Nat.ltb_spec (S (list_sum ns)) (S i)); try reflexivity; lia.
      * rewrite (good_settled _ _ _ Gw).
        -- destruct (Nat.ltb_spec (list_sum ns) i), (Nat.leb_spec (list_sum ns) i), (Nat.ltb_spec (list_sum ns) (S i)); try reflexivity; lia.
        -- destruct w as [|w']; [lia|]. cbn [advs]. now apply adv_pos.
    + rewrite (proj2 (Nat.leb_le (length ns) _)) by lia. rewrite orb_true_r. rewrite no_len by lia. reflexivity.
Qed.

Section Epochs.
Context {I P : Type}.
Variables (l0 : list slot) (c : cfg) (ne bs : option nat).
Hypothesis Hc : c_cbs c = places l0.
Notation K := (length (lengths l0)).
Notation replayw := (@replay I P (list slot) warm_cb).
Definition at_start (i : nat) (v : view (list slot)) : Prop :=
  exists s p md, v = View md i (fst s <? K) ne bs (build (fst s) (snd s) p 0 l0) /\ good (lengths l0) i s /\
    (0 < K -> (K <=? fst s) = (total l0 <? i)) /\ post_ok l0 i p.
Definition inside (i : nat) (v : view (list slot)) : Prop :=
  exists s p, v = View (Some Train) (S i) (fst s <? K) ne bs (build (fst s) (snd s) p 0 l0) /\ good (lengths l0) i s /\ settled (lengths l0) s /\
    post_ok l0 (S i) p.
Lemma replay_on e v : replayw v (on c e) = @calls I P _ warm_cb e (places l0) v.
Proof. unfold on, calls. now rewrite Hc. Qed.
Lemma warm_idle k e v : in_scan e = true -> warm_cb k e v = same_as v.
Proof. intros H. rewrite warm_cb_eq. cbv zeta. destruct (nth_error (vw_st v) k) as [[n cnt []|[]|]|]; destruct e; try discriminate H; reflexivity. Qed.
Lemma warm_valid k e v : vw_mode v = Some Valid -> e = EpochBegin \/ e = EpochEnd -> warm_cb k e v = same_as v.
Proof. intros H He. rewrite warm_cb_eq. cbv zeta. unfold in_train. rewrite H. destruct (nth_error (vw_st v) k) as [[n cnt []|[]|]|]; destruct He as [-> | ->]; reflexivity. Qed.
Lemma scan_idle train skip (s : scan I P) v l : prefix l (doc_scan c train skip s) -> replayw v l = v.
Proof.
  intros [r Hr]. apply still_scan; [exact warm_idle|]. pose proof (si_scan c train skip s) as F. rewrite Hr in F. apply Forall_app in F. tauto.
Qed.
Lemma before_all : before l0 (length l0) = K. Proof. unfold before. now rewrite firstn_all. Qed.
Lemma begin_inside i v : at_start i v -> inside i (replayw v ([SetTrain] ++ on c EpochBegin)).
Proof.
  intros (s & p & md & -> & G & HK & HP). rewrite replay_app', replay_on. cbn [replay fold_left replay1 vw_epoch vw_skip vw_n_epochs vw_bs vw_st].
  unfold places. rewrite (epoch_begin l0 s p (S i) ne bs (good_okc _ _ _ G) (length l0) (le_n _)). cbv zeta. rewrite before_all.
  exists (advs (lengths l0) K s), (posts l0 s p). split; [|split; [now apply good_advs|split; [apply advs_settled|now apply post_step]]].
  f_equal. apply build_post. intros k b Hk. cbn [plus]. rewrite (proj2 (Nat.ltb_lt k _)); [reflexivity|]. apply nth_error_Some. congruence.
Qed.
Lemma end_start i v : inside i v -> at_start (S i) (replayw v (on c EpochEnd)).
Proof.
  intros (s & p & -> & G & Hs & HP). rewrite replay_on. unfold places. pose proof (@epoch_end I P p l0 (fst s) (snd s) [] (S i) (fst s <? K) ne bs) as H.
  cbn [length app] in H. rewrite H. exists (fst s, S (snd s)), p, (Some Train). split; [reflexivity|]. cbn [fst snd]. split; [|split; [|exact HP]].
  - destruct G as (G1 & G2 & G3). split; [exact G1|]. cbn [fst snd]. split.
    + intros n Hn. destruct (G2 n Hn). specialize (Hs n Hn). lia.
    + intros Hn. specialize (G3 Hn). lia.
  - intros _. rewrite (good_settled _ _ _ G Hs). unfold total. destruct (Nat.leb_spec (list_sum (lengths l0)) i), (Nat.ltb_spec (list_sum (lengths l0)) (S i)); try reflexivity; lia.
Qed.
Lemma epoch_steps_on i v x : at_start i v -> at_start (S i) (replayw v (doc_epoch c x)).
Proof.
  intros H. unfold doc_epoch, doc_run. rewrite !replay_app'.
  rewrite (scan_idle true (ep_skip x) (ep_train x) _ (doc_scan c true (ep_skip x) (ep_train x))) by (exists []; now rewrite app_nil_r).
  apply begin_inside in H. apply end_start in H. rewrite replay_app' in H. revert H. generalize (replayw (replayw (replayw v [SetTrain]) (on c EpochBegin)) (on c EpochEnd)). intros v1 H.
  destruct (ep_valid x) as [s|]; [|exact H]. destruct H as (s' & p & md & -> & G & HK & HP).
  cbn [app]. change (replayw ?v (SetEval :: ?l)) with (replayw (replay1 warm_cb v (SetEval : item I P)) l). cbn [replay1 vw_epoch vw_skip vw_n_epochs vw_bs vw_st].
  rewrite !replay_app', !replay_on. rewrite (calls_same warm_cb EpochBegin) by (intros; apply warm_valid; auto).
  rewrite (scan_idle false (ep_skip x) s _ (doc_scan c false (ep_skip x) s)) by (exists []; now rewrite app_nil_r). rewrite (calls_same warm_cb EpochEnd) by (intros; apply warm_valid; auto).
  exists s', p, (Some Valid). auto.
Qed.
Lemma epochs_on xs : forall i v, at_start i v -> at_start (i + length xs) (replayw v (flat_map (doc_epoch c) xs)).
Proof.
  induction xs as [|x xs IH]; intros i v H; cbn [length flat_map]; [now rewrite Nat.add_0_r|]. rewrite replay_app', <- plus_n_Sm. apply (IH (S i)). now apply epoch_steps_on.
Qed.
Lemma begin_start v : v = View None 0 false ne bs l0 -> at_start 0 (replayw v (on c SetWrapper ++ on c TrainBegin)).
Proof.
  intros ->. rewrite replay_app', !replay_on. rewrite (calls_same warm_cb SetWrapper).
  2: { intros k. rewrite warm_cb_eq. cbv zeta. cbn [vw_st]. destruct (nth_error l0 k) as [[n cnt []|[]|]|]; reflexivity. }
  unfold places. pose proof (@train_begin I P l0 [] None 0 false ne bs) as H. cbn [length app build] in H. rewrite H.
  exists (0, 0), off, None. cbn [fst snd]. split; [now destruct (0 <? K)|]. split; [|split].
  - split; [cbn; lia|]. cbn [fst snd]. split; [intros n _; cbn; lia|]. intros Hn. apply nth_error_None in Hn. rewrite no_len by lia. lia.
  - intros Hk. rewrite (proj2 (Nat.leb_gt _ _)) by lia. reflexivity.
  - intros k. cbv zeta. unfold off. repeat split; try discriminate; try lia. intros _. now destruct (_ && _)%bool.
Qed.
Lemma upto_inside xs i v : i < length xs -> v = View None 0 false ne bs l0 -> inside i (replayw v (upto c xs i)).
Proof.
  intros Hi Hv. unfold upto. rewrite !app_assoc, <- (app_assoc _ [SetTrain]). rewrite replay_app'. apply begin_inside. rewrite replay_app'.
  replace i with (0 + length (firstn i xs)) at 1 by (rewrite firstn_length; lia). apply epochs_on. now apply begin_start.
Qed.
(* what inside says, at a place *)
Lemma start_sum k : start l0 k = list_sum (firstn (before l0 k) (lengths l0)).
Proof.
  unfold start, total, before. f_equal. rewrite <- (firstn_skipn k l0) at 3. rewrite lengths_app.
  rewrite firstn_app, firstn_all, Nat.sub_diag. cbn. now rewrite app_nil_r.
Qed.
Lemma place_len k n b o : nth_error l0 k = Some (SWarm n b o) -> nth_error (lengths l0) (before l0 k) = Some n.
Proof.
  intros H. unfold before. rewrite <- (firstn_skipn k l0) at 1. rewrite lengths_app, nth_error_app2, Nat.sub_diag by lia.
  assert (Hs : skipn k l0 = SWarm n b o :: skipn (S k) l0).
  { clear - H. revert k H. induction l0 as [|x l IH]; intros [|k]; try discriminate; cbn; [now intros [= ->]|]. apply IH. }
  now rewrite Hs.
Qed.
Lemma inside_warm i v k n b o : inside i v -> nth_error l0 k = Some (SWarm n b o) ->
  nth_error (vw_st v) k = Some (SWarm n (Nat.min n (i - start l0 k)) ((start l0 k <=? i) && (i <? start l0 k + n))).
Proof.
  intros (s & p & -> & G & Hs & _) Hk. cbn [vw_st]. rewrite (nth_build _ _ _ _ _ _ _ Hk). cbv zeta. fold (before l0 k). rewrite start_sum.
  pose proof (place_len _ _ _ _ Hk) as Hn. set (t := before l0 k) in *. set (ns := lengths l0) in *. pose proof (sum_snoc _ _ _ Hn) as Ht.
  destruct G as (G1 & G2 & G3). f_equal. destruct (Nat.ltb_spec t (fst s)) as [A|A].
  - assert (Hi : list_sum (firstn t ns) + n <= i).
    { rewrite <- Ht. eapply Nat.le_trans; [exact (sum_firstn_mono ns (S t) (fst s) A)|]. destruct (nth_error ns (fst s)) as [m|] eqn:E.
      - destruct (G2 m eq_refl). lia.
      - apply Nat.le_trans with (list_sum ns); [apply sum_firstn_le|now apply G3]. }
    rewrite (proj2 (Nat.ltb_ge _ _)) by lia. rewrite andb_false_r. f_equal. lia.
  - destruct (Nat.eqb_spec t (fst s)) as [E|E].
    + rewrite E in *. destruct (G2 n Hn). specialize (Hs n Hn). rewrite (proj2 (Nat.leb_le _ _)), (proj2 (Nat.ltb_lt _ _)) by lia. f_equal. lia.
    + destruct (nth_error ns (fst s)) as [m|] eqn:Em.
      * destruct (G2 m eq_refl). specialize (Hs m Em). pose proof (sum_snoc _ _ _ Em). pose proof (sum_firstn_mono ns (S (fst s)) t ltac:(lia)).
        rewrite (proj2 (Nat.leb_gt _ _)) by lia. cbn [andb]. f_equal. lia.
      * apply nth_error_None in Em. assert (t < length ns) by (apply nth_error_Some; congruence). lia.
Qed.
Lemma inside_skip i v : inside i v -> vw_skip v = (i <? total l0).
Proof.
  intros (s & p & -> & G & Hs & _). cbn [vw_skip]. pose proof (good_settled _ _ _ G Hs) as H. unfold total.
  destruct (Nat.leb_spec K (fst s)), (Nat.leb_spec (list_sum (lengths l0)) i), (Nat.ltb_spec (fst s) K), (Nat.ltb_spec i (list_sum (lengths l0))); try reflexivity; try discriminate; lia.
Qed.
Lemma inside_post i v k b : inside i v -> nth_error l0 k = Some (SPost b) -> exists p, nth_error (vw_st v) k = Some (SPost (p k)) /\ post_ok l0 (S i) p.
Proof. intros (s & p & -> & G & Hs & HP) Hk. cbn [vw_st]. exists p. split; [now rewrite (nth_build _ _ _ _ _ _ _ Hk)|exact HP]. Qed.
End Epochs.
