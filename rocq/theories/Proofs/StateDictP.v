From Coq Require Import String Reals FinFun.
From Verif Require Import Spec.StateDictSpec.
Open Scope string_scope.
Open Scope list_scope.

Lemma part_eqb_eq a b : part_eqb a b = true <-> a = b.
Proof.
  destruct a as [s|i], b as [t|j]; cbn [part_eqb]; try (split; discriminate); [rewrite String.eqb_eq|rewrite Nat.eqb_eq]; split; congruence.
Qed.
Lemma key_eqb_eq a b : key_eqb a b = true <-> a = b.
Proof.
  revert b. induction a as [|x a IH]; intros [|y b]; cbn [key_eqb]; try (split; [discriminate|discriminate]); [split; reflexivity|].
  rewrite andb_true_iff, part_eqb_eq, IH. split; [intros [-> ->]; reflexivity|]. intro H; injection H; auto.
Qed.
Lemma key_eqb_refl k : key_eqb k k = true.
Proof. apply key_eqb_eq. reflexivity. Qed.
Lemma shape_eqb_eq a b : shape_eqb a b = true <-> a = b.
Proof. unfold shape_eqb. destruct (list_eq_dec Nat.eq_dec a b); split; congruence. Qed.

Lemma at_key_in {A} k (d : list (key * A)) a : at_key k d = Some a -> In (k, a) d.
Proof.
  induction d as [|[k' b] d IH]; cbn [at_key]; [discriminate|]. destruct (key_eqb k k') eqn:E; [|intro H; right; auto].
  apply key_eqb_eq in E as ->. intro H; injection H as ->. left. reflexivity.
Qed.
Lemma at_key_nodup {A} k (d : list (key * A)) a : NoDup (map fst d) -> In (k, a) d -> at_key k d = Some a.
Proof.
  induction d as [|[k' b] d IH]; cbn [map fst]; intros N H; [destruct H|]. inversion N as [|? ? N1 N2]; subst.
  cbn [at_key]. destruct H as [H|H].
  - injection H as -> ->. rewrite key_eqb_refl. reflexivity.
  - destruct (key_eqb k k') eqn:E; [|auto]. apply key_eqb_eq in E as ->. exfalso. apply N1. apply in_map with (f := fst) in H. exact H.
Qed.
Lemma at_key_none {A} k (d : list (key * A)) : at_key k d = None <-> ~ In k (map fst d).
Proof.
  induction d as [|[k' b] d IH]; cbn [at_key map fst]; [split; [intros _ []|reflexivity]|]. destruct (key_eqb k k') eqn:E.
  - apply key_eqb_eq in E as ->. split; [discriminate|]. intro H. exfalso. apply H. left. reflexivity.
  - rewrite IH. split; intros H; [intros [<-|X]; [rewrite key_eqb_refl in E; discriminate|auto]|intro X; apply H; right; exact X].
Qed.

(* fit_to and becomes *)
Lemma fit_becomes old new t : fit_to old new = Some t <-> becomes old new t.
Proof.
  unfold fit_to, becomes. destruct old as [so xo], new as [sn xn]. cbn [t_shape t_data].
  assert (K : (if shape_eqb so sn then Some (Ten sn xn) else None) = Some t <-> sn = so /\ t = Ten sn xn).
  { destruct (shape_eqb so sn) eqn:E.
    - apply shape_eqb_eq in E as ->. split; [intro H; injection H as <-; auto|intros [_ ->]; reflexivity].
    - split; [discriminate|]. intros [-> _]. rewrite (proj2 (shape_eqb_eq so so) eq_refl) in E. discriminate. }
  destruct so as [|a so].
  - destruct sn as [|n [|n' sn]]; try (rewrite K; split; [left; assumption|intros [H|(_ & n0 & x & l & H & _)]; [exact H|discriminate H]]).
    destruct xn as [|x xn].
    + rewrite K. split; [left; assumption|]. intros [H|(_ & n0 & x & l & _ & H & _)]; [exact H|discriminate H].
    + split.
      * intro H; injection H as <-. right. split; [reflexivity|]. exists n, x, xn. auto.
      * intros [[H _]|(_ & n0 & y & l & _ & H & ->)]; [discriminate H|]. injection H as -> ->. reflexivity.
  - rewrite K. split; [left; assumption|]. intros [H|(H & _)]; [exact H|discriminate H].
Qed.
Lemma fit_shape old new t : fit_to old new = Some t -> t_shape t = t_shape old.
Proof. rewrite fit_becomes. intros [[H ->]|(H & n & x & l & _ & _ & ->)]; [exact H|now rewrite H]. Qed.
Lemma fit_same a b new : t_shape a = t_shape b -> fit_to a new = fit_to b new.
Proof. unfold fit_to. now intros ->. Qed.

(* what an entry leaves in its object *)
Definition written (sd : sdict) (m : mem) (k : key) (c : nat) : tensor :=
  match at_key k sd with Some t => match fit_to (m c) t with Some t' => t' | None => m c end | None => m c end.
Definition fine (sd : sdict) (m : mem) (k : key) (c : nat) : Prop := exists t, at_key k sd = Some t /\ fit_to (m c) t <> None.
Lemma written_step sd m k c k' c' v : written sd m k c = v -> (c' = c -> written sd m k' c = v) -> written sd (put m c v) k' c' = written sd m k' c'.
Proof.
  intros H1 H2. unfold written, put in *. destruct (Nat.eqb_spec c' c) as [->|N]; [|reflexivity]. specialize (H2 eq_refl).
  assert (S : t_shape v = t_shape (m c)).
  { rewrite <- H1. destruct (at_key k sd) as [t|]; [|reflexivity]. destruct (fit_to (m c) t) eqn:E; [|reflexivity]. exact (fit_shape _ _ _ E). }
  destruct (at_key k' sd) as [t|]; [|exact (eq_sym H2)]. rewrite (fit_same v (m c) t S). destruct (fit_to (m c) t); [reflexivity|exact (eq_sym H2)].
Qed.
Lemma fine_same sd m m' k c : t_shape (m c) = t_shape (m' c) -> fine sd m k c <-> fine sd m' k c.
Proof. intro H. unfold fine. split; intros (t & E & F); exists t; (split; [exact E|]); [rewrite <- (fit_same _ _ t H)|rewrite (fit_same _ _ t H)]; exact F. Qed.
Lemma load_step sd k c es m : exists b, load_entries sd ((k, c) :: es) m = (b && fst (load_entries sd es (put m c (written sd m k c))), snd (load_entries sd es (put m c (written sd m k c)))) /\
  (b = true <-> fine sd m k c) \/ (b = false /\ ~ fine sd m k c /\ written sd m k c = m c /\ load_entries sd ((k, c) :: es) m = (false, snd (load_entries sd es m))).
Proof.
  cbn [load_entries]. unfold written, fine. destruct (at_key k sd) as [t|] eqn:E.
  - destruct (fit_to (m c) t) as [t'|] eqn:F.
    + exists true. left. split; [destruct (load_entries sd es (put m c t')); reflexivity|]. split; [|reflexivity]. intros _. exists t. split; [reflexivity|]. rewrite F. discriminate.
    + exists false. right. split; [reflexivity|]. split; [intros (t0 & H & X); injection H as <-; auto|]. split; [reflexivity|]. destruct (load_entries sd es m); reflexivity.
  - exists false. right. split; [reflexivity|]. split; [intros (t0 & H & X); discriminate|]. split; [reflexivity|]. destruct (load_entries sd es m); reflexivity.
Qed.

Lemma load_entries_spec sd es : forall m ok m1, load_entries sd es m = (ok, m1) ->
  (forall c, t_shape (m1 c) = t_shape (m c)) /\
  (ok = true <-> forall k c, In (k, c) es -> fine sd m k c) /\
  (forall c, ~ In c (map snd es) -> m1 c = m c) /\
  (forall k c, In (k, c) es -> (forall k', In (k', c) es -> written sd m k' c = written sd m k c) -> m1 c = written sd m k c).
Proof.
  induction es as [|[k c] es IH]; intros m ok m1 H.
  - cbn in H. injection H as <- <-. split; [reflexivity|]. split; [split; [intros _ k c []|reflexivity]|]. split; [reflexivity|]. intros k c [].
  - destruct (load_step sd k c es m) as (b & [[E Hb]|(-> & NF & Wr & E)]).
    + rewrite E in H. injection H as <- <-. set (v := written sd m k c) in *. clear E.
      destruct (load_entries sd es (put m c v)) as [ok2 m2] eqn:E2. cbn [fst snd].
      destruct (IH _ _ _ E2) as (S & O & U & Wt).
      assert (SV : forall d, t_shape (put m c v d) = t_shape (m d)).
      { intro d. unfold put. destruct (Nat.eqb_spec d c) as [->|]; [|reflexivity]. unfold v, written. destruct (at_key k sd) as [t|]; [|reflexivity].
        destruct (fit_to (m c) t) eqn:F; [exact (fit_shape _ _ _ F)|reflexivity]. }
      split; [intro d; rewrite S; apply SV|]. split; [|split].
      * rewrite andb_true_iff, Hb, O. split.
        -- intros [F G] k' d [X|X]; [injection X as <- <-; exact F|]. apply (fine_same sd (put m c v) m k' d (SV d)). auto.
        -- intro G. split; [apply G; left; reflexivity|]. intros k' d X. apply (fine_same sd (put m c v) m k' d (SV d)), G. right. exact X.
      * intros d N. rewrite U by (intro X; apply N; right; exact X). unfold put. destruct (Nat.eqb_spec d c) as [->|]; [|reflexivity]. exfalso. apply N. left. reflexivity.
      * intros k' d X Ag.
        destruct (in_dec Nat.eq_dec d (map snd es)) as [I|I].
        -- apply in_map_iff in I as ((k2 & d2) & Ed & I). cbn [snd] in Ed. subst d2.
           assert (St : forall q, In (q, d) es -> written sd (put m c v) q d = written sd m k' d).
           { intros q Q. rewrite (written_step sd m k c q d v eq_refl).
             - apply Ag. right. exact Q.
             - intros ->. unfold v. rewrite (Ag q (or_intror Q)). symmetry. apply Ag. left. reflexivity. }
           rewrite (Wt k2 d I); [apply St; exact I|]. intros q Q. rewrite (St q Q), (St k2 I). reflexivity.
        -- rewrite U by exact I. destruct X as [X|X]; [|exfalso; apply I, in_map_iff; exists (k', d); auto]. injection X as <- <-. unfold put. rewrite Nat.eqb_refl. reflexivity.
    + rewrite E in H. injection H as <- <-. destruct (load_entries sd es m) as [ok2 m2] eqn:E2. cbn [snd].
      destruct (IH _ _ _ E2) as (S & O & U & Wt). split; [exact S|]. split; [|split].
      * split; [discriminate|]. intro G. exfalso. apply NF, G. left. reflexivity.
      * intros d N. apply U. intro X; apply N; right; exact X.
      * intros k' d X Ag. destruct (in_dec Nat.eq_dec d (map snd es)) as [I|I].
        -- apply in_map_iff in I as ((k2 & d2) & Ed & I). cbn [snd] in Ed. subst d2.
           rewrite (Wt k2 d I); [apply Ag; right; exact I|]. intros q Q. rewrite (Ag q (or_intror Q)). symmetry. apply Ag. right. exact I.
        -- rewrite U by exact I. destruct X as [X|X]; [|exfalso; apply I, in_map_iff; exists (k', d); auto]. injection X as <- <-. exact (eq_sym Wr).
Qed.

(* keys *)
Lemma NoDup_app_disjoint {A} (l1 l2 : list A) : NoDup l1 -> NoDup l2 -> (forall x, In x l1 -> ~ In x l2) -> NoDup (l1 ++ l2).
Proof.
  induction l1 as [|a l1 IH]; intros H1 H2 D; [exact H2|]. inversion H1; subst. cbn. constructor.
  - rewrite in_app_iff. intros [X|X]; [contradiction|]. apply (D a); [left; reflexivity|exact X].
  - apply IH; auto. intros x Hx. apply D. right. exact Hx.
Qed.
Lemma dev_keys_nodup d : NoDup (map fst (dev_entries d)).
Proof. destruct d; cbn [dev_entries map fst]; repeat (constructor; [cbn; intuition discriminate|]); constructor. Qed.
Lemma under_keys p l : map fst (under p l) = map (fun k => p ++ k) (map fst l).
Proof. unfold under. rewrite !map_map. reflexivity. Qed.
Lemma NoDup_prefix (p : key) l : NoDup l -> NoDup (map (fun k => p ++ k) l).
Proof. intro H. apply FinFun.Injective_map_NoDup; [|exact H]. intros a b. apply app_inv_head. Qed.
Lemma panel_keys i ds : forall j k, In k (map fst (panel_entries i j ds)) -> exists j' k', j <= j' /\ k = [Nm "layers"; Ix i; Nm "panels"; Ix j'] ++ k'.
Proof.
  induction ds as [|d ds IH]; intros j k H; [destruct H|]. cbn [panel_entries] in H. rewrite map_app, in_app_iff, under_keys in H. destruct H as [H|H].
  - apply in_map_iff in H as (k' & <- & _). exists j, k'. auto.
  - destruct (IH _ _ H) as (j' & k' & L & ->). exists j', k'. split; [lia|reflexivity].
Qed.
Lemma panel_nodup i ds : forall j, NoDup (map fst (panel_entries i j ds)).
Proof.
  induction ds as [|d ds IH]; intro j; [constructor|]. cbn [panel_entries]. rewrite map_app, under_keys. apply NoDup_app_disjoint; [apply NoDup_prefix, dev_keys_nodup|apply IH|].
  intros k H X. apply in_map_iff in H as (k' & <- & _). apply panel_keys in X as (j' & k2 & L & E). cbn [app] in E. injection E as E _. lia.
Qed.
Lemma layer_keys ls : forall i k, In k (map fst (layer_entries i ls)) -> exists i' k', i <= i' /\ k = [Nm "layers"; Ix i'] ++ k'.
Proof.
  induction ls as [|l ls IH]; intros i k H; [destruct H|]. cbn [layer_entries] in H. rewrite map_app, in_app_iff in H. destruct H as [H|H].
  - destruct l as [ds|]; [|destruct H]. apply panel_keys in H as (j' & k' & _ & ->). exists i, ([Nm "panels"; Ix j'] ++ k'). split; [lia|reflexivity].
  - destruct (IH _ _ H) as (i' & k' & L & ->). exists i', k'. split; [lia|reflexivity].
Qed.
Lemma layer_nodup ls : forall i, NoDup (map fst (layer_entries i ls)).
Proof.
  induction ls as [|l ls IH]; intro i; [constructor|]. cbn [layer_entries]. rewrite map_app. apply NoDup_app_disjoint; [destruct l; [apply panel_nodup|constructor]|apply IH|].
  intros k H X. destruct l as [ds|]; [|destruct H]. apply panel_keys in H as (j' & k' & _ & ->). apply layer_keys in X as (i' & k2 & L & E). cbn [app] in E. injection E as E _. lia.
Qed.
Lemma entries_nodup V : NoDup (map fst (entries V)).
Proof.
  unfold entries. rewrite map_app. apply NoDup_app_disjoint; [destruct (d_weights V); repeat constructor; intros []|apply layer_nodup|].
  intros k H X. destruct (d_weights V); [|destruct H]. destruct H as [<-|[]]. apply layer_keys in X as (i' & k2 & _ & E). discriminate E.
Qed.
Lemma place_fun V k c c' : place V k c -> place V k c' -> c = c'.
Proof.
  unfold place. intros H H'. apply (at_key_nodup _ _ _ (entries_nodup V)) in H, H'. congruence.
Qed.

(* the same build: the same keys *)
Lemma dev_keys_kind d d' : kind_of d = kind_of d' -> map fst (dev_entries d) = map fst (dev_entries d').
Proof. destruct d, d'; cbn; intro H; try discriminate H; reflexivity. Qed.
Lemma panel_keys_kind i ds : forall ds' j, map kind_of ds = map kind_of ds' -> map fst (panel_entries i j ds) = map fst (panel_entries i j ds').
Proof.
  induction ds as [|d ds IH]; intros [|d' ds'] j H; try discriminate H; [reflexivity|]. cbn [map] in H. injection H as H1 H2.
  cbn [panel_entries]. rewrite !map_app, !under_keys, (dev_keys_kind _ _ H1), (IH _ (S j) H2). reflexivity.
Qed.
Lemma layer_keys_kind ls : forall ls' i, map (option_map (map kind_of)) ls = map (option_map (map kind_of)) ls' -> map fst (layer_entries i ls) = map fst (layer_entries i ls').
Proof.
  induction ls as [|l ls IH]; intros [|l' ls'] i H; try discriminate H; [reflexivity|]. cbn [map] in H. injection H as H1 H2.
  cbn [layer_entries]. rewrite !map_app, (IH _ (S i) H2). f_equal. destruct l, l'; cbn in H1; try discriminate H1; [|reflexivity]. injection H1 as H1. apply panel_keys_kind. exact H1.
Qed.
Lemma same_keys V V' : same_build V V' -> map fst (entries V) = map fst (entries V').
Proof.
  intros [H W]. unfold entries. rewrite !map_app. f_equal; [|apply layer_keys_kind; exact H].
  destruct (d_weights V), (d_weights V'); try reflexivity; [discriminate (proj2 W eq_refl)|discriminate (proj1 W eq_refl)].
Qed.
Lemma place_same V V' k c : same_build V V' -> place V k c -> exists c', place V' k c'.
Proof.
  intros B H. apply in_map with (f := fst) in H. rewrite (same_keys _ _ B) in H. apply in_map_iff in H as ((k' & c') & E & H). cbn in E. subst k'. exists c'. exact H.
Qed.
Lemma same_build_sym V V' : same_build V V' -> same_build V' V.
Proof. intros [A B]. split; [auto|]. split; apply B. Qed.

(* keys without gmm: each object of a volume once *)
Definition gmm (p : part) : bool := part_eqb p (Nm "gmm").
Definition canon (k : key) : key := filter (fun p => negb (gmm p)) k.
Definition plain (kc : key * nat) : bool := forallb (fun p => negb (gmm p)) (fst kc).
Lemma canon_plain k : forallb (fun p => negb (gmm p)) (canon k) = true.
Proof. unfold canon. apply forallb_forall. intros p H. apply filter_In in H. apply H. Qed.
Lemma dev_canon d k c : In (k, c) (dev_entries d) -> In (canon k, c) (dev_entries d).
Proof.
  destruct d; cbn [dev_entries In]; intro H; repeat (destruct H as [H|H]; [injection H as <- <-; cbn; tauto|]); destruct H.
Qed.
Lemma under_in p l k c : In (k, c) (under p l) <-> exists k', k = p ++ k' /\ In (k', c) l.
Proof.
  unfold under. rewrite in_map_iff. split.
  - intros ((k' & c') & E & H). cbn in E. injection E as <- <-. eauto.
  - intros (k' & -> & H). exists (k', c). auto.
Qed.
Lemma panel_canon i ds : forall j k c, In (k, c) (panel_entries i j ds) -> In (canon k, c) (panel_entries i j ds).
Proof.
  induction ds as [|d ds IH]; intros j k c H; [destruct H|]. cbn [panel_entries] in *. rewrite in_app_iff in *. destruct H as [H|H]; [left|right; apply IH, H].
  rewrite under_in in *. destruct H as (k' & -> & H). exists (canon k'). split; [reflexivity|]. apply dev_canon. exact H.
Qed.
Lemma layer_canon ls : forall i k c, In (k, c) (layer_entries i ls) -> In (canon k, c) (layer_entries i ls).
Proof.
  induction ls as [|l ls IH]; intros i k c H; [destruct H|]. cbn [layer_entries] in *. rewrite in_app_iff in *. destruct H as [H|H]; [left|right; apply IH, H].
  destruct l; [apply panel_canon; exact H|destruct H].
Qed.
Lemma place_canon V k c : place V k c -> place V (canon k) c.
Proof.
  unfold place, entries. rewrite !in_app_iff. intros [H|H]; [left|right; apply layer_canon, H]. destruct (d_weights V); [|destruct H]. destruct H as [H|[]]. injection H as <- <-. left. reflexivity.
Qed.
Lemma filter_under p l : forallb (fun q => negb (gmm q)) p = true -> filter plain (under p l) = under p (filter plain l).
Proof.
  intro H. unfold under. induction l as [|[k c] l IH]; [reflexivity|]. cbn [map filter fst snd]. rewrite IH.
  assert (E : plain (p ++ k, c) = plain (k, c)) by (unfold plain; cbn [fst]; rewrite forallb_app, H; reflexivity). rewrite E. destruct (plain (k, c)); reflexivity.
Qed.
Lemma dev_plain d : map snd (filter plain (dev_entries d)) = dev_objects d.
Proof. destruct d; reflexivity. Qed.
Lemma under_snd p l : map snd (under p l) = map snd l.
Proof. unfold under. rewrite map_map. reflexivity. Qed.
Lemma panel_plain i ds : forall j, map snd (filter plain (panel_entries i j ds)) = flat_map dev_objects ds.
Proof.
  induction ds as [|d ds IH]; intro j; [reflexivity|]. cbn [panel_entries flat_map]. rewrite filter_app, map_app, IH, filter_under by reflexivity. rewrite under_snd, dev_plain. reflexivity.
Qed.
Lemma layer_plain ls : forall i, map snd (filter plain (layer_entries i ls)) = flat_map dev_objects (flat_map (fun l => match l with Some ds => ds | None => [] end) ls).
Proof.
  induction ls as [|l ls IH]; intro i; [reflexivity|]. cbn [layer_entries flat_map]. rewrite filter_app, map_app, flat_map_app, IH. f_equal. destruct l; [apply panel_plain|reflexivity].
Qed.
Lemma objects_plain V : map snd (filter plain (entries V)) = objects V.
Proof. unfold entries, objects, devs. rewrite filter_app, map_app, layer_plain. f_equal. destruct (d_weights V); reflexivity. Qed.
Lemma NoDup_snd_inj {A} (l : list (A * nat)) a b c : NoDup (map snd l) -> In (a, c) l -> In (b, c) l -> a = b.
Proof.
  induction l as [|[x d] l IH]; cbn [map snd]; intros N Ha Hb; [destruct Ha|]. inversion N as [|? ? N1 N2]; subst.
  destruct Ha as [Ha|Ha], Hb as [Hb|Hb]; [congruence| | |auto].
  - injection Ha as -> ->. exfalso. apply N1. apply in_map with (f := snd) in Hb. exact Hb.
  - injection Hb as -> ->. exfalso. apply N1. apply in_map with (f := snd) in Ha. exact Ha.
Qed.
Lemma unshared_canon V k1 k2 c : unshared V -> place V k1 c -> place V k2 c -> canon k1 = canon k2.
Proof.
  intros U H1 H2. apply place_canon in H1, H2. unfold unshared in U. rewrite <- objects_plain in U.
  apply (NoDup_snd_inj (filter plain (entries V)) _ _ c U); apply filter_In; (split; [assumption|apply canon_plain]).
Qed.
Lemma twin_objects V V' k1 k2 c1 c2 c' : unshared V' -> place V k1 c1 -> place V k2 c2 -> place V' k1 c' -> place V' k2 c' -> c1 = c2.
Proof.
  intros U H1 H2 H3 H4. pose proof (unshared_canon _ _ _ _ U H3 H4) as E. apply place_canon in H1, H2. rewrite E in H1. exact (place_fun _ _ _ _ H1 H2).
Qed.

Lemma at_state V m k c : place V k c -> at_key k (state_dict V m) = Some (m c).
Proof.
  intro H. apply at_key_nodup.
  - unfold state_dict. rewrite map_map. cbn [fst]. exact (entries_nodup V).
  - unfold state_dict. apply in_map_iff. exists (k, c). auto.
Qed.
Lemma state_keys V m : map fst (state_dict V m) = map fst (entries V).
Proof. unfold state_dict. rewrite map_map. reflexivity. Qed.

Lemma fine_loads sd m k c : fine sd m k c <-> exists t, loads sd m k c t.
Proof.
  unfold fine, loads. split.
  - intros (new & E & F). destruct (fit_to (m c) new) as [t|] eqn:G; [|congruence]. exists t, new. split; [exact E|]. apply fit_becomes. exact G.
  - intros (t & new & E & F). exists new. split; [exact E|]. apply fit_becomes in F. rewrite F. discriminate.
Qed.
Lemma written_loads sd m k c t : loads sd m k c t -> written sd m k c = t.
Proof. intros (new & E & F). apply fit_becomes in F. unfold written. now rewrite E, F. Qed.
Lemma written_not sd m k c : ~ (exists t, loads sd m k c t) -> written sd m k c = m c.
Proof.
  intro N. unfold written. destruct (at_key k sd) as [new|] eqn:E; [|reflexivity]. destruct (fit_to (m c) new) as [t|] eqn:F; [|reflexivity].
  exfalso. apply N. exists t, new. split; [exact E|]. apply fit_becomes. exact F.
Qed.
Lemma unexpected_false sd es : unexpected sd es = false <-> forall k, In k (map fst sd) -> In k (map fst es).
Proof.
  unfold unexpected. split.
  - intros H k Hk. destruct (at_key k es) as [c|] eqn:E; [apply at_key_in, (in_map fst) in E; exact E|]. exfalso.
    apply in_map_iff in Hk as (kt & <- & Hk). assert (X : existsb (fun kt => match at_key (fst kt) es with None => true | Some _ => false end) sd = true); [|congruence].
    apply existsb_exists. exists kt. split; [exact Hk|]. now rewrite E.
  - intro H. destruct (existsb _ sd) eqn:E; [|reflexivity]. exfalso. apply existsb_exists in E as (kt & Hk & X). destruct (at_key (fst kt) es) eqn:F; [discriminate|].
    apply at_key_none in F. apply F, H, in_map, Hk.
Qed.

(* the general form of C109_restored *)
Lemma restored_general V V' m m' : same_build V V' ->
  (forall k c c', place V k c -> place V' k c' -> exists t, becomes (m' c') (m c) t) ->
  (forall k1 k2 c1 c2 c' t1 t2, place V k1 c1 -> place V k2 c2 -> place V' k1 c' -> place V' k2 c' -> becomes (m' c') (m c1) t1 -> becomes (m' c') (m c2) t2 -> t1 = t2) ->
  exists m1, load_state_dict (state_dict V m) V' m' = (Ok tt, m1) /\
    (forall k c c' t, place V k c -> place V' k c' -> becomes (m' c') (m c) t -> m1 c' = t) /\
    (forall c', (forall k, ~ place V' k c') -> m1 c' = m' c').
Proof.
  intros B Sh Ag. unfold load_state_dict. destruct (load_entries (state_dict V m) (entries V') m') as [ok m1] eqn:E. exists m1.
  destruct (load_entries_spec _ _ _ _ _ E) as (_ & O & U & Wt).
  assert (L : forall k c c' t, place V k c -> place V' k c' -> becomes (m' c') (m c) t -> loads (state_dict V m) m' k c' t).
  { intros k c c' t H H' T. exists (m c). split; [apply at_state; exact H|exact T]. }
  split; [|split].
  - f_equal. assert (ok = true) as ->.
    { apply O. intros k c' H'. destruct (place_same V' V k c' (same_build_sym _ _ B) H') as (c & H). destruct (Sh k c c' H H') as (t & T). apply fine_loads. exists t. exact (L _ _ _ _ H H' T). }
    assert (unexpected (state_dict V m) (entries V') = false) as ->; [|reflexivity]. apply unexpected_false. intros k Hk. rewrite state_keys, (same_keys _ _ B) in Hk. exact Hk.
  - intros k c c' t H H' T. rewrite (Wt k c' H'); [exact (written_loads _ _ _ _ _ (L _ _ _ _ H H' T))|].
    intros k' Hk'. destruct (place_same V' V k' c' (same_build_sym _ _ B) Hk') as (c2 & H2). destruct (Sh k' c2 c' H2 Hk') as (t2 & T2).
    rewrite (written_loads _ _ _ _ _ (L k' c2 c' t2 H2 Hk' T2)), (written_loads _ _ _ _ _ (L k c c' t H H' T)). exact (Ag k' k c2 c c' t2 t H2 H Hk' H' T2 T).
  - intros c' N. apply U. intro X. apply in_map_iff in X as ((k & d) & Ed & X). cbn in Ed. subst d. exact (N k X).
Qed.

(* set_smooth *)
Definition smooth_key (k : key) : bool := existsb (fun p => part_eqb p (Nm "_smooth")) k.
Lemma smooth_key_in k : smooth_key k = true <-> In (Nm "_smooth") k.
Proof.
  unfold smooth_key. rewrite existsb_exists. split; [intros (p & H & E); apply part_eqb_eq in E as ->; exact H|]. intro H. exists (Nm "_smooth"). split; [exact H|]. apply part_eqb_eq. reflexivity.
Qed.
Definition resm (c : nat) (kc : key * nat) : key * nat := (fst kc, if smooth_key (fst kc) then c else snd kc).
Lemma dev_smooth c d : dev_entries (smooth_dev c d) = map (resm c) (dev_entries d).
Proof. destruct d; reflexivity. Qed.
Lemma under_smooth c p l : smooth_key p = false -> under p (map (resm c) l) = map (resm c) (under p l).
Proof.
  intro H. unfold under. rewrite !map_map. apply map_ext. intros [k d]. unfold resm. cbn [fst snd]. unfold smooth_key in *. rewrite existsb_app, H. reflexivity.
Qed.
Lemma panel_smooth c i ds : forall j, panel_entries i j (map (smooth_dev c) ds) = map (resm c) (panel_entries i j ds).
Proof. induction ds as [|d ds IH]; intro j; [reflexivity|]. cbn [map panel_entries]. rewrite map_app, <- IH, dev_smooth, under_smooth by reflexivity. reflexivity. Qed.
Lemma layer_smooth c ls : forall i, layer_entries i (map (option_map (map (smooth_dev c))) ls) = map (resm c) (layer_entries i ls).
Proof. induction ls as [|l ls IH]; intro i; [reflexivity|]. cbn [map layer_entries]. rewrite map_app, <- IH. f_equal. destruct l; [apply panel_smooth|reflexivity]. Qed.
Lemma entries_smooth c V : entries (set_smooth c V) = map (resm c) (entries V).
Proof. unfold entries, set_smooth. cbn [d_weights d_layers]. rewrite map_app, layer_smooth. f_equal. destruct (d_weights V); reflexivity. Qed.
Lemma place_smooth c V k c1 : place (set_smooth c V) k c1 <-> exists c0, place V k c0 /\ c1 = (if smooth_key k then c else c0).
Proof.
  unfold place. rewrite entries_smooth, in_map_iff. split.
  - intros ((k' & c0) & E & H). unfold resm in E. cbn [fst snd] in E. injection E as <- <-. exists c0. auto.
  - intros (c0 & H & ->). exists (k, c0). auto.
Qed.
Lemma build_smooth c V : same_build V (set_smooth c V).
Proof.
  split; [|split; auto]. unfold build_of, set_smooth. cbn [d_layers]. rewrite map_map. apply map_ext. intros [ds|]; [|reflexivity]. cbn [option_map]. f_equal. rewrite map_map. apply map_ext. intros []; reflexivity.
Qed.

(* ---- optimisers ---- *)
Lemma index_nth c l i : NoDup l -> nth_error l i = Some c -> index_of c l = Some i.
Proof.
  revert i. induction l as [|d l IH]; intros [|i] N H; try discriminate H.
  - cbn in H. injection H as ->. cbn. rewrite Nat.eqb_refl. reflexivity.
  - cbn in H. inversion N as [|? ? N1 N2]; subst. cbn [index_of]. destruct (Nat.eqb_spec d c) as [->|_]; [exfalso; apply N1, (nth_error_In l i), H|]. rewrite (IH i N2 H). reflexivity.
Qed.
Section Opt.
Context {St : Type}.
Lemma same_sizes_eq (o : optim St) gs : sizes (o_groups o) = sizes gs -> same_sizes (z_groups (opt_dict o)) gs = true.
Proof.
  unfold opt_dict. cbn [z_groups]. generalize (ids (o_groups o)) as all. intro all. generalize (o_groups o) as g. clear o. intro g.
  revert gs. induction g as [|a g IH]; intros [|b gs] H; try discriminate H; [reflexivity|]. cbn [sizes map] in H. injection H as H1 H2.
  cbn [map same_sizes snd]. rewrite map_length, H1, Nat.eqb_refl. exact (IH gs H2).
Qed.
Lemma same_sizes_neq (o : optim St) gs : same_sizes (z_groups (opt_dict o)) gs = true -> sizes (o_groups o) = sizes gs.
Proof.
  unfold opt_dict. cbn [z_groups]. generalize (ids (o_groups o)) as all. intro all. generalize (o_groups o) as g. clear o. intro g.
  revert gs. induction g as [|a g IH]; intros [|b gs] H; try discriminate H; [reflexivity|]. cbn [map same_sizes snd] in H. apply andb_true_iff in H as [H1 H2].
  apply Nat.eqb_eq in H1. rewrite map_length in H1. cbn [sizes map]. rewrite H1. f_equal. exact (IH gs H2).
Qed.
Lemma regroup_settings (f : list param -> list nat) g : forall gs, length g = length gs -> its_settings (regroup (map (fun x => (g_set x, f (g_params x))) g) gs) = its_settings g
  /\ map g_params (regroup (map (fun x => (g_set x, f (g_params x))) g) gs) = map g_params gs.
Proof.
  induction g as [|a g IH]; intros [|b gs] H; try discriminate H; [split; reflexivity|]. injection H as H. destruct (IH gs H) as [A B]. cbn. split; f_equal; assumption.
Qed.
Lemma flat_ids_gen (g : optimiser) (all : list nat) :
  flat_map snd (map (fun x => (g_set x, map (fun p => match index_of (p_id p) all with Some i => i | None => 0 end) (g_params x))) g) =
  map (fun c => match index_of c all with Some i => i | None => 0 end) (ids g).
Proof. unfold ids. induction g as [|a g IH]; [reflexivity|]. cbn [map flat_map snd]. rewrite IH, !map_app, !map_map. reflexivity. Qed.
Lemma load_opt_ok (o o' : optim St) : sizes (o_groups o) = sizes (o_groups o') -> NoDup (ids (o_groups o)) -> NoDup (ids (o_groups o')) ->
  exists o1, load_opt (opt_dict o) o' = Ok o1 /\ taken_over o o' o1.
Proof.
  intros S N N'. unfold load_opt. rewrite (same_sizes_eq o _ S). eexists. split; [reflexivity|]. unfold taken_over. cbn [o_groups o_state].
  assert (L : length (o_groups o) = length (o_groups o')) by (unfold sizes in S; apply (f_equal (@length nat)) in S; now rewrite !map_length in S).
  destruct (regroup_settings (fun ps => map (fun p => match index_of (p_id p) (ids (o_groups o)) with Some i => i | None => 0 end) ps) (o_groups o) (o_groups o') L) as [A B].
  split; [exact A|]. split; [exact B|]. intros i c c' H H'. rewrite (index_nth _ _ _ N' H'). unfold opt_dict at 1. cbn [z_groups].
  rewrite flat_ids_gen, nth_error_map, H. cbn [option_map]. rewrite (index_nth _ _ _ N H). cbn [opt_dict z_state]. rewrite H, (index_nth _ _ _ N H), Nat.eqb_refl. reflexivity.
Qed.
Lemma load_opt_err (o o' : optim St) : sizes (o_groups o) <> sizes (o_groups o') -> load_opt (opt_dict o) o' = Err ValueError.
Proof. intro H. unfold load_opt. destruct (same_sizes _ _) eqn:E; [|reflexivity]. exfalso. apply H, same_sizes_neq, E. Qed.

Lemma dset_new {A} k (a : A) d : ~ In k (map fst d) -> dset k a d = d ++ [(k, a)].
Proof.
  induction d as [|[k' b] d IH]; intro N; [reflexivity|]. cbn [dset app]. destruct (String.eqb_spec k' k) as [->|]; [exfalso; apply N; left; reflexivity|].
  rewrite IH; [reflexivity|]. intro X. apply N. right. exact X.
Qed.
Lemma save_list {A B} (g : A -> B) (os : list (string * A)) : forall d, NoDup (map fst d ++ map fst os) ->
  fold_left (fun f ko => dset (fst ko) (g (snd ko)) f) os d = d ++ map (fun ko => (fst ko, g (snd ko))) os.
Proof.
  induction os as [|[k a] os IH]; intros d N; [cbn; now rewrite app_nil_r|]. cbn [fold_left fst snd map] in *.
  assert (~ In k (map fst d)) as Nk. { apply NoDup_remove_2 in N. intro X. apply N. apply in_or_app. left. exact X. }
  rewrite (dset_new _ _ _ Nk), IH; [rewrite <- app_assoc; reflexivity|]. rewrite map_app, <- app_assoc. exact N.
Qed.
Lemma dget_mid {A} k (a : A) d1 d2 : ~ In k (map fst d1) -> dget k (d1 ++ (k, a) :: d2) = Ok a.
Proof.
  induction d1 as [|[k' b] d1 IH]; intro N; [cbn; rewrite String.eqb_refl; reflexivity|]. cbn [app dget]. destruct (String.eqb_spec k' k) as [->|]; [exfalso; apply N; left; reflexivity|].
  apply IH. intro X. apply N. right. exact X.
Qed.
Lemma dset_mid {A} k (a b : A) d1 d2 : ~ In k (map fst d1) -> dset k b (d1 ++ (k, a) :: d2) = d1 ++ (k, b) :: d2.
Proof.
  induction d1 as [|[k' x] d1 IH]; intro N; [cbn; rewrite String.eqb_refl; reflexivity|]. cbn [app dset]. destruct (String.eqb_spec k' k) as [->|]; [exfalso; apply N; left; reflexivity|].
  rewrite IH; [reflexivity|]. intro X. apply N. right. exact X.
Qed.
(* loading optimisers of the same names, in order *)
Lemma load_opts_spec (os : list (string * optim St)) : forall os' done, Forall2 fits_opt os os' -> NoDup (map fst done ++ map fst os') ->
  exists os1, load_opts (map (fun ko => (fst ko, IOpt (opt_dict (snd ko)))) os) (done ++ os') = (Ok tt, done ++ os1) /\ all3 os os' os1.
Proof.
  induction os as [|[k o] os IH]; intros os' done F N.
  - inversion F; subst. exists []. split; [reflexivity|constructor].
  - inversion F as [|a [k' o'] l l' Hf F']; subst. destruct Hf as [Ek Hf]. cbn [fst snd] in *. subst k'. cbn [map fst snd] in *.
    assert (~ In k (map fst done)) as Nk. { apply NoDup_remove_2 in N. intro X. apply N. apply in_or_app. left. exact X. }
    cbn [load_opts]. destruct (is_opt k) eqn:Io.
    + destruct (Hf eq_refl) as (S & N1 & N2). destruct (load_opt_ok o o' S N1 N2) as (o1 & E1 & T). rewrite (dget_mid _ _ _ _ Nk), E1, (dset_mid _ _ _ _ _ Nk).
      destruct (IH l' (done ++ [(k, o1)]) F') as (os1 & E & A3). { rewrite map_app, <- app_assoc. exact N. }
      rewrite <- app_assoc in E. cbn [app] in E. exists ((k, o1) :: os1). split; [rewrite E, <- app_assoc; reflexivity|]. constructor; [|exact A3]. split; [reflexivity|]. cbn [fst snd]. rewrite Io. exact T.
    + destruct (IH l' (done ++ [(k, o')]) F') as (os1 & E & A3). { rewrite map_app, <- app_assoc. exact N. }
      rewrite <- app_assoc in E. cbn [app] in E. exists ((k, o') :: os1). split; [rewrite E, <- app_assoc; reflexivity|]. constructor; [|exact A3]. split; [reflexivity|]. cbn [fst snd]. rewrite Io. reflexivity.
Qed.

Lemma load_opts_part (os : list (string * optim St)) : forall os' dn rest tl, Forall2 fits_opt os os' -> NoDup (map fst dn ++ map fst os') ->
  exists os1, load_opts (map (fun ko => (fst ko, IOpt (opt_dict (snd ko)))) os ++ rest) (dn ++ os' ++ tl) = load_opts rest (dn ++ os1 ++ tl) /\ all3 os os' os1.
Proof.
  induction os as [|[k o] os IH]; intros os' dn rest tl F N.
  - inversion F; subst. exists []. split; [reflexivity|constructor].
  - inversion F as [|a [k' o'] l l' Hf F']; subst. destruct Hf as [Ek Hf]. cbn [fst snd] in *. subst k'. cbn [map fst snd app] in *.
    assert (~ In k (map fst dn)) as Nk. { apply NoDup_remove_2 in N. intro X. apply N. apply in_or_app. left. exact X. }
    cbn [load_opts]. destruct (is_opt k) eqn:Io.
    + destruct (Hf eq_refl) as (S & N1 & N2). destruct (load_opt_ok o o' S N1 N2) as (o1 & E1 & T). rewrite (dget_mid _ _ _ _ Nk), E1, (dset_mid _ _ _ _ _ Nk).
      destruct (IH l' (dn ++ [(k, o1)]) rest tl F') as (os1 & E & A3). { rewrite map_app, <- app_assoc. exact N. }
      rewrite <- !app_assoc in E. cbn [app] in E. exists ((k, o1) :: os1). split; [rewrite E; reflexivity|]. constructor; [|exact A3]. split; [reflexivity|]. cbn [fst snd]. rewrite Io. exact T.
    + destruct (IH l' (dn ++ [(k, o')]) rest tl F') as (os1 & E & A3). { rewrite map_app, <- app_assoc. exact N. }
      rewrite <- !app_assoc in E. cbn [app] in E. exists ((k, o') :: os1). split; [rewrite E; reflexivity|]. constructor; [|exact A3]. split; [reflexivity|]. cbn [fst snd]. rewrite Io. reflexivity.
Qed.
Lemma fits_names (l l' : list (string * optim St)) : Forall2 fits_opt l l' -> map fst l' = map fst l.
Proof. induction 1 as [|a b l l' [H _] _ IH]; [reflexivity|]. cbn. rewrite H, IH. reflexivity. Qed.
Lemma dhas_false {A} k (d : list (string * A)) : ~ In k (map fst d) -> dhas k d = false.
Proof.
  intro N. unfold dhas. induction d as [|[k' a] d IH]; [reflexivity|]. cbn [existsb fst]. destruct (String.eqb_spec k' k) as [->|]; [exfalso; apply N; left; reflexivity|].
  apply IH. intro X. apply N. right. exact X.
Qed.
Lemma save_file (w : wrap St) m : NoDup (map fst (w_opts w)) -> ~ In "volume" (map fst (w_opts w)) ->
  save w m = ("volume", IVol (state_dict (w_det w) m)) :: map (fun ko => (fst ko, IOpt (opt_dict (snd ko)))) (w_opts w).
Proof.
  intros N V. unfold save.
  rewrite (save_list (fun o => IOpt (opt_dict o)) (w_opts w) [("volume", IVol (state_dict (w_det w) m))]); [reflexivity|]. cbn. constructor; assumption.
Qed.
Lemma load_det assign (w w' : wrap St) m m' :
  same_build (w_det w) (w_det w') -> same_shapes (w_det w) m (w_det w') m' ->
  (forall k1 k2 c1 c2 c', place (w_det w) k1 c1 -> place (w_det w) k2 c2 -> place (w_det w') k1 c' -> place (w_det w') k2 c' -> m c1 = m c2) ->
  NoDup (map fst (w_opts w)) -> ~ In "volume" (map fst (w_opts w)) -> ~ In "budget_weights" (map fst (w_opts w)) ->
  exists m1, load assign (save w m) w' m' = (let '(r, os) := load_opts (map (fun ko => (fst ko, IOpt (opt_dict (snd ko)))) (w_opts w)) (w_opts w') in (r, (Wrapr (w_det w') os, m1))) /\
    restored (w_det w) m (w_det w') m' m1.
Proof.
  intros B Sh Ag N NV NB. rewrite (save_file _ _ N NV). unfold load. cbn [dget String.eqb Ascii.eqb Bool.eqb].
  destruct (restored_general (w_det w) (w_det w') m m' B) as (m1 & E & R1 & R2).
  { intros k c c' H H'. exists (m c). left. split; [symmetry; exact (Sh k c c' H H')|reflexivity]. }
  { intros k1 k2 c1 c2 c' t1 t2 H1 H2 H3 H4 T1 T2.
    assert (X : forall k c t, place (w_det w) k c -> place (w_det w') k c' -> becomes (m' c') (m c) t -> t = m c).
    { intros k c t P P' [[_ T]|(T & n & x & l & T' & _)]; [exact T|]. rewrite (Sh k c c' P P') in T. congruence. }
    rewrite (X _ _ _ H1 H3 T1), (X _ _ _ H2 H4 T2). exact (Ag k1 k2 c1 c2 c' H1 H2 H3 H4). }
  rewrite E. assert (D : dhas "budget_weights" (("volume", IVol (state_dict (w_det w) m)) :: map (fun ko => (fst ko, IOpt (opt_dict (snd ko)))) (w_opts w)) = false).
  { apply dhas_false. cbn [map fst]. rewrite map_map. cbn [fst]. intros [X|X]; [discriminate X|exact (NB X)]. }
  rewrite D. cbn [load_opts]. change (is_opt "volume") with false. cbn iota.
  exists m1. split; [reflexivity|]. split; [|exact R2].
  intros k c c' H H'. apply (R1 k c c' _ H H'). left. split; [symmetry; exact (Sh k c c' H H')|reflexivity].
Qed.
Lemma load_wrapper assign (w w' : wrap St) m m' :
  same_build (w_det w) (w_det w') -> same_shapes (w_det w) m (w_det w') m' ->
  (forall k1 k2 c1 c2 c', place (w_det w) k1 c1 -> place (w_det w) k2 c2 -> place (w_det w') k1 c' -> place (w_det w') k2 c' -> m c1 = m c2) ->
  Forall2 fits_opt (w_opts w) (w_opts w') -> NoDup (map fst (w_opts w)) -> ~ In "volume" (map fst (w_opts w)) -> ~ In "budget_weights" (map fst (w_opts w)) ->
  exists w1 m1, load assign (save w m) w' m' = (Ok tt, (w1, m1)) /\ w_det w1 = w_det w' /\ restored (w_det w) m (w_det w') m' m1 /\ all3 (w_opts w) (w_opts w') (w_opts w1).
Proof.
  intros B Sh Ag F N NV NB. destruct (load_det assign w w' m m' B Sh Ag N NV NB) as (m1 & E & R).
  destruct (load_opts_spec (w_opts w) (w_opts w') [] F) as (os1 & E1 & A3). { cbn. rewrite (fits_names _ _ F). exact N. }
  cbn [app] in E1. rewrite E1 in E. exists (Wrapr (w_det w') os1), m1. auto.
Qed.

(* new wrappers *)
Definition fits_new (a : string * optim St) (b : string * optimiser) : Prop :=
  fst a = fst b /\ sizes (o_groups (snd a)) = sizes (snd b) /\ NoDup (ids (o_groups (snd a))) /\ NoDup (ids (snd b)).
Lemma from_new assign (w : wrap St) m V' m' os :
  same_build (w_det w) V' -> unshared V' -> same_shapes (w_det w) m V' m' ->
  Forall2 fits_new (w_opts w) os -> NoDup (map fst (w_opts w)) -> Forall (fun k => is_opt k = true) (map fst (w_opts w)) ->
  exists w1 m1, then_load assign (made (Ok os) V') (save w m) m' = (Ok w1, m1) /\ w_det w1 = V' /\ restored (w_det w) m V' m' m1 /\ all3 (w_opts w) (new_opts os) (w_opts w1).
Proof.
  intros B U Sh F N O. assert (NO : forall s, is_opt s = false -> ~ In s (map fst (w_opts w))). { intros s Hs X. rewrite Forall_forall in O. rewrite (O s X) in Hs. discriminate. }
  destruct (load_wrapper assign w (Wrapr V' (new_opts os)) m m' B Sh) as (w1 & m1 & E & D & R & A3).
  - intros k1 k2 c1 c2 c' H1 H2 H3 H4. f_equal. exact (twin_objects _ _ k1 k2 c1 c2 c' U H1 H2 H3 H4).
  - cbn [w_opts]. unfold new_opts. clear - F. induction F as [|a b l l' (H1 & H2 & H3 & H4) _ IH]; [constructor|]. cbn [map]. constructor; [|exact IH]. split; [exact H1|]. intros _. cbn [snd o_groups]. auto.
  - exact N.
  - apply NO. reflexivity.
  - apply NO. reflexivity.
  - exists w1, m1. split; [|split; [exact D|split; [exact R|exact A3]]]. unfold then_load, made. cbn [bind]. unfold new_opts in E |- *. rewrite E. reflexivity.
Qed.
End Opt.

(* the parameters of the panels *)
Definition rectd (d : dev) : bool := match d with DHeat _ _ _ _ _ _ _ _ _ => false | _ => true end.
Definition heatd (d : dev) : bool := negb (rectd d).
Definition xy_of (d : dev) : nat := match d with DPanel a _ _ _ _ _ | DSig a _ _ _ _ _ _ => a | DHeat a _ _ _ _ _ _ _ _ => a end.
Definition z_of (d : dev) : nat := match d with DPanel _ a _ _ _ _ | DSig _ a _ _ _ _ _ => a | DHeat _ _ _ a _ _ _ _ _ => a end.
Definition span_of (d : dev) : nat := match d with DPanel _ _ a _ _ _ | DSig _ _ a _ _ _ _ => a | DHeat _ _ a _ _ _ _ _ _ => a end.
Definition sig_of (d : dev) : nat := match d with DHeat _ a _ _ _ _ _ _ _ => a | DPanel _ a _ _ _ _ | DSig _ a _ _ _ _ _ => a end.
Lemma panels_devs V m : panels_of (vol_of V m) = map (pan_of m) (devs V).
Proof.
  unfold panels_of, vol_of, devs. cbn [vo_layers]. generalize (d_layers V) as ls. induction ls as [|l ls IH]; [reflexivity|]. cbn [map flat_map]. rewrite IH, map_app. f_equal. destruct l; reflexivity.
Qed.
Lemma opt_of_devs get f d V m : devs V <> [] -> (forall x, In x (devs V) -> get (pan_of m x) = Ok (par m (f x))) ->
  opt_of get d (vol_of V m) = Ok [Group (map (fun x => par m (f x)) (devs V)) d].
Proof.
  intros N G. unfold opt_of. rewrite panels_devs.
  assert (mapM get (map (pan_of m) (devs V)) = Ok (map (fun x => par m (f x)) (devs V))) as ->.
  { clear N. induction (devs V) as [|x l IH]; [reflexivity|]. cbn [map mapM]. rewrite (G x (or_introl eq_refl)). cbn [bind]. rewrite IH; [reflexivity|]. intros y Hy. apply G. right. exact Hy. }
  cbn [bind]. destruct (devs V); [congruence|reflexivity].
Qed.
Lemma NoDup_pick {A} (f : A -> nat) (objs : A -> list nat) l : (forall x, In (f x) (objs x)) -> NoDup (flat_map objs l) -> NoDup (map f l).
Proof.
  intros H. induction l as [|x l IH]; [constructor|]. cbn [flat_map map]. intro N. constructor.
  - intro X. apply in_map_iff in X as (y & E & Hy). assert (In (f x) (flat_map objs l)) as I. { apply in_flat_map. exists y. split; [exact Hy|]. rewrite <- E. apply H. }
    clear - N I H. specialize (H x). induction (objs x) as [|o os IHo]; [destruct H|]. cbn in N. inversion N as [|? ? N1 N2]; subst. destruct H as [->|H]; [apply N1, in_or_app; right; exact I|auto].
  - apply IH. clear - N. induction (objs x) as [|o os IHo]; [exact N|]. cbn in N. inversion N; subst. auto.
Qed.
Lemma unshared_devs V : unshared V -> NoDup (flat_map dev_objects (devs V)).
Proof. unfold unshared, objects. destruct (d_weights V); [|auto]. cbn. intro N. inversion N; assumption. Qed.
Lemma build_devs V V' : same_build V V' -> map kind_of (devs V) = map kind_of (devs V').
Proof.
  intros [H _]. unfold build_of in H. unfold devs. revert H. generalize (d_layers V) as ls, (d_layers V') as ls'. induction ls as [|l ls IH]; intros [|l' ls'] H; try discriminate H; [reflexivity|].
  cbn [map] in H. injection H as H1 H2. cbn [flat_map]. rewrite !map_app, (IH ls' H2). f_equal. destruct l, l'; cbn in H1; try discriminate H1; [injection H1 as H1; exact H1|reflexivity].
Qed.
Lemma ids_group m (f : dev -> nat) l d : ids [Group (map (fun x => par m (f x)) l) d] = map f l.
Proof. unfold ids. cbn [flat_map g_params]. rewrite app_nil_r, map_map. reflexivity. Qed.
