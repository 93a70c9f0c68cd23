(* Lemmas for C93. *)
From Coq Require Import ZArith Reals Lra Lia List Arith Bool.
From Verif Require Import Base.Res Base.RUtil Model.Walls Spec.WallsSpec.
Import ListNotations.
Open Scope list_scope.
Open Scope nat_scope.

Section P.
Variables (nz nx ny : nat) (stop_k turn_k : R) (min_length : nat).
Let free := free nz. Let raise_at := raise_at nz.
Let build := build nz nx ny stop_k turn_k min_length.

Lemma free_spec m x y : free m x y = true <-> ~ occupied nz m (x, y).
Proof.
  unfold free, Walls.free, occupied. cbn [fst snd]. rewrite forallb_forall. split.
  - intros H (z & Hz & E). specialize (H z). rewrite E in H. cbn in H. enough (false = true) by discriminate. apply H. apply in_seq. lia.
  - intros H z Hz. apply in_seq in Hz. destruct (m z x y) eqn:E; [|reflexivity]. exfalso. apply H. exists z. split; [lia|exact E].
Qed.
Lemma raise_spec m g h x y z a b : raise_at m g h x y z a b = true <-> m z a b = true \/ (a, b) = (x, y) /\ g <= z < h /\ z < nz.
Proof.
  unfold raise_at, Walls.raise_at. rewrite orb_true_iff, !andb_true_iff, Nat.leb_le, !Nat.ltb_lt, !Nat.eqb_eq. split; (intros [H|H]; [left; exact H|right]).
  - destruct H as ((((? & ?) & ?) & ->) & ->). auto.
  - destruct H as ([= -> ->] & ? & ?). tauto.
Qed.
Lemma raise_occ m g h x y p : occupied nz (raise_at m g h x y) p -> occupied nz m p \/ p = (x, y).
Proof. destruct p as [a b]. intros (z & Hz & E). cbn [fst snd] in E. apply raise_spec in E as [E|(E & _)]; [left; exists z; auto|right; exact E]. Qed.
Lemma occ_raise m g h x y p : occupied nz m p -> occupied nz (raise_at m g h x y) p.
Proof. destruct p as [a b]. intros (z & Hz & E). exists z. split; [exact Hz|]. apply raise_spec. left. exact E. Qed.
Lemma raise_new m g h x y : g < h -> h <= nz -> occupied nz (raise_at m g h x y) (x, y).
Proof. intros. exists g. split; [lia|]. apply raise_spec. right. repeat split; lia. Qed.

Lemma choice_ok {A} (l : list A) u : l <> [] -> exists a, choice l u = Ok a /\ In a l.
Proof.
  intros H. unfold choice. assert (u mod length l < length l) by (apply Nat.mod_upper_bound; destruct l; [congruence|discriminate]).
  destruct (nth_error l (u mod length l)) eqn:E; [|apply nth_error_None in E; lia]. eexists. split; [reflexivity|]. eapply nth_error_In; eauto.
Qed.
Lemma step_next d p : next_to p (let '(x, y) := p in step d x y).
Proof. destruct p as [x y], d; unfold next_to; cbn [step fst snd]; lia. Qed.

Lemma not_free m x y : free m x y = false -> occupied nz m (x, y).
Proof.
  intros Ef. apply not_true_iff_false in Ef. unfold free, Walls.free in Ef. unfold occupied. cbn [fst snd]. clear - Ef. induction nz as [|n IH]; [exfalso; now apply Ef|].
  rewrite seq_S, forallb_app in Ef. cbn [forallb plus] in Ef. destruct (m n x y) eqn:E; [exists n; split; [lia|exact E]|]. cbn [negb andb] in Ef. rewrite andb_true_r in Ef. destruct (IH Ef) as (z & ? & ?). exists z. split; [lia|assumption].
Qed.
Lemma stuck m g h x y (len : nat) m' : free m x y = false -> Ok (Some m) = Ok (Some m') ->
  exists path, NoDup path /\ chain path /\ Forall (fun p => on_grid nx ny p /\ ~ occupied nz m p) path /\ walled nz m m' g h path /\
    (path = [] <-> occupied nz m (x, y)) /\ (path <> [] -> hd_error path = Some (x, y)) /\
    (forall pre p, path = pre ++ [p] -> min_length <= len + length path \/ blocked nz nx ny m' p).
Proof.
  intros Ef [= <-]. exists []. split; [constructor|]. split; [exact I|]. split; [constructor|]. split; [intros z a b; cbn; tauto|].
  pose proof (not_free _ _ _ Ef). split; [tauto|]. split; [congruence|]. intros [|? ?] ? E; discriminate.
Qed.

Lemma build_path ds : forall m g h x y d len since m', g < h -> h <= nz -> on_grid nx ny (x, y) ->
  build ds m g h x y d len since = Ok (Some m') ->
  exists path, NoDup path /\ chain path /\ Forall (fun p => on_grid nx ny p /\ ~ occupied nz m p) path /\ walled nz m m' g h path /\
    (path = [] <-> occupied nz m (x, y)) /\ (path <> [] -> hd_error path = Some (x, y)) /\
    (forall pre p, path = pre ++ [p] -> min_length <= len + length path \/ blocked nz nx ny m' p).
Proof.
  induction ds as [|u ds IH]; intros m g h x y d len since m' Hg Hh Hxy; unfold build; cbn [Walls.build]; fold build; fold free; fold raise_at; destruct (free m x y) eqn:Ef.
  - discriminate.
  - now apply stuck.
  - apply free_spec in Ef. set (m1 := raise_at m g h x y).
    assert (one : walled nz m m1 g h [(x, y)]). { intros z a b. unfold m1. rewrite raise_spec. cbn [In]. split; intros [H|H]; auto; right; [destruct H as (-> & ?)|destruct H as ([<-|[]] & ?)]; tauto. }
    assert (base : forall (Q : Prop), (min_length <= len + 1 \/ blocked nz nx ny m1 (x, y)) ->
      exists path, NoDup path /\ chain path /\ Forall (fun p => on_grid nx ny p /\ ~ occupied nz m p) path /\ walled nz m m1 g h path /\
        (path = [] <-> occupied nz m (x, y)) /\ (path <> [] -> hd_error path = Some (x, y)) /\ (forall pre p, path = pre ++ [p] -> min_length <= len + length path \/ blocked nz nx ny m1 p)).
    { intros _ HQ. exists [(x, y)]. split; [repeat constructor; intros []|]. split; [exact I|]. split; [constructor; [tauto|constructor]|]. split; [exact one|]. split; [split; [discriminate|tauto]|]. split; [reflexivity|].
      intros [|? [|? ?]] p E; try discriminate. injection E as <-. exact HQ. }
    cbv zeta. destruct (Nat.leb_spec min_length (S len)) as [Hl|Hl]; cbn [andb].
    2: destruct (if Rltb (d_turn u) _ then _ else _) as [[since' d']|] eqn:Et; cbn [bind]; [|discriminate].
    1: destruct (Rltb (d_stop u) (exp (- stop_k / INR (S len)))); [intros [= <-]; apply (base True); left; lia|].
    1: destruct (if Rltb (d_turn u) _ then _ else _) as [[since' d']|] eqn:Et; cbn [bind]; [|discriminate].
    all: pose proof (step_next d' (at_z (x, y))) as Hn; cbn [at_z fst snd] in Hn; destruct (step d' (Z.of_nat x) (Z.of_nat y)) as [x' y'];
      destruct ((Z.of_nat nx <=? x')%Z || (x' <? 0)%Z || (Z.of_nat ny <=? y')%Z || (y' <? 0)%Z) eqn:Eo.
    1,3: intros [= <-]; apply (base True); right; exists (x', y'); (split; [exact Hn|]); left; intros [a b] [Ha Hb] [= Ex Ey]; cbn in Ha, Hb; rewrite !orb_true_iff, !Z.leb_le, !Z.ltb_lt in Eo; lia.
    all: rewrite !orb_false_iff, !Z.leb_gt, !Z.ltb_ge in Eo; intro HB;
      assert (Hxy' : on_grid nx ny (Z.to_nat x', Z.to_nat y')) by (split; cbn [fst snd]; lia);
      assert (Ez : at_z (Z.to_nat x', Z.to_nat y') = (x', y')) by (unfold at_z; cbn [fst snd]; rewrite !Z2Nat.id by lia; reflexivity);
      destruct (IH m1 g h (Z.to_nat x') (Z.to_nat y') d' (S len) since' m' Hg Hh Hxy' HB) as (path & N & C & F & W & E0 & E1 & St); exists ((x, y) :: path);
      assert (Fn : Forall (fun p => on_grid nx ny p /\ ~ occupied nz m p /\ p <> (x, y)) path)
        by (apply Forall_forall; intros p Hp; rewrite Forall_forall in F; destruct (F p Hp) as [F1 F2]; repeat split; [apply F1|apply F1|intro O; apply F2; now apply occ_raise|intros ->; apply F2; now apply raise_new]);
      (split; [constructor; [|exact N]; intro Hi; rewrite Forall_forall in Fn; now destruct (Fn _ Hi) as (_ & _ & K)|]);
      (split; [destruct path as [|q path]; [exact I|]; cbn [chain]; split; [|exact C]; injection (E1 ltac:(discriminate)) as ->; rewrite Ez; exact Hn|]);
      (split; [constructor; [tauto|]; eapply Forall_impl; [|exact Fn]; intros p (? & ? & _); auto|]);
      (split; [intros z a b; rewrite (W z a b); unfold m1; rewrite raise_spec; cbn [In]; split; [intros [[H|(-> & H)]|H]; tauto|intros [H|([<-|H] & H')]; tauto]|]);
      (split; [split; [discriminate|tauto]|]); (split; [reflexivity|]);
      intros pre p Ep; destruct path as [|q path];
      [destruct pre as [|? [|? ?]]; try discriminate; injection Ep as <-; right; exists (x', y'); split; [exact Hn|]; right; exists (Z.to_nat x', Z.to_nat y'); split; [now rewrite Ez|];
         destruct (proj1 E0 eq_refl) as (z & Hz & Hm); exists z; split; [exact Hz|]; apply W; left; exact Hm
      |destruct pre as [|c pre]; [discriminate|]; injection Ep as <- Ep; destruct (St pre p Ep) as [K|K]; [left; cbn [length] in *; lia|right; exact K]].
  - now apply stuck.
Qed.

(* termination: every round takes a free cell *)
Lemma filter_le {A} (p q : A -> bool) l : (forall a, p a = true -> q a = true) -> length (filter p l) <= length (filter q l).
Proof. intros H. induction l as [|a l IH]; [reflexivity|]. cbn [filter]. destruct (p a) eqn:E; [rewrite (H _ E); cbn; lia|]. destruct (q a); cbn; lia. Qed.
Lemma filter_lt {A} (p q : A -> bool) l c : (forall a, p a = true -> q a = true) -> In c l -> p c = false -> q c = true -> length (filter p l) < length (filter q l).
Proof.
  intros H. induction l as [|a l IH]; [intros []|]. intros Hc Hp Hq. cbn [filter]. destruct Hc as [->|Hc].
  - rewrite Hp, Hq. cbn [length]. pose proof (filter_le p q l H). lia.
  - specialize (IH Hc Hp Hq). destruct (p a) eqn:E; [rewrite (H _ E); cbn; lia|]. destruct (q a); cbn; lia.
Qed.
Definition open_cells (m : zmap) : nat := length (filter (fun p => free m (fst p) (snd p)) (list_prod (seq 0 nx) (seq 0 ny))).
Lemma open_le m : open_cells m <= nx * ny.
Proof.
  unfold open_cells. rewrite <- (seq_length nx 0) at 2. rewrite <- (seq_length ny 0) at 2. rewrite <- prod_length.
  generalize (list_prod (seq 0 nx) (seq 0 ny)). induction l as [|a l IH]; [reflexivity|]. cbn [filter]. destruct (free _ _ _); cbn [length]; lia.
Qed.
Lemma open_raise m g h x y : g < h -> h <= nz -> on_grid nx ny (x, y) -> free m x y = true -> open_cells (raise_at m g h x y) < open_cells m.
Proof.
  intros Hg Hh [Hx Hy] Hf. cbn [fst snd] in Hx, Hy. apply (filter_lt _ _ _ (x, y)).
  - intros [a b] H. cbn [fst snd] in *. apply free_spec in H. apply free_spec. intro O. apply H. now apply occ_raise.
  - apply in_prod; apply in_seq; lia.
  - cbn [fst snd]. destruct (free (raise_at m g h x y) x y) eqn:E; [|reflexivity]. apply free_spec in E. exfalso. apply E. now apply raise_new.
  - exact Hf.
Qed.
Lemma build_ends ds : forall m g h x y d len since, g < h -> h <= nz -> on_grid nx ny (x, y) -> open_cells m <= length ds ->
  exists m', build ds m g h x y d len since = Ok (Some m').
Proof.
  induction ds as [|u ds IH]; intros m g h x y d len since Hg Hh Hxy Ho; unfold build; cbn [Walls.build]; fold build; fold free; fold raise_at; destruct (free m x y) eqn:Ef; try (eexists; reflexivity).
  - exfalso. pose proof (open_raise m g h x y Hg Hh Hxy Ef). cbn [length] in Ho. lia.
  - cbv zeta. pose proof (open_raise m g h x y Hg Hh Hxy Ef) as Hlt. destruct (_ && _); [eexists; reflexivity|].
    assert (Ht : exists s' d', (if Rltb (d_turn u) (exp (- turn_k / INR (S since))) then d'0 <- choice (turns d) (d_pick u);; Ok (0, d'0) else Ok (S since, d)) = Ok (s', d')).
    { destruct (Rltb _ _); [|eauto]. destruct (choice_ok (turns d) (d_pick u)) as (d' & -> & _); [destruct d; discriminate|]. cbn [bind]. eauto. }
    destruct Ht as (s' & d' & ->). cbn [bind]. destruct (step d' (Z.of_nat x) (Z.of_nat y)) as [x' y'].
    destruct ((Z.of_nat nx <=? x')%Z || (x' <? 0)%Z || (Z.of_nat ny <=? y')%Z || (y' <? 0)%Z) eqn:Eo; [eexists; reflexivity|].
    rewrite !orb_false_iff, !Z.leb_gt, !Z.ltb_ge in Eo. apply IH; auto; [split; cbn [fst snd]; lia|]. cbn [length] in Ho. lia.
Qed.
End P.
