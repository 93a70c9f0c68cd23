From Coq Require Import Permutation FinFun.
From Verif Require Export Spec.BuildSpec.
Open Scope list_scope.

Lemma panels_of_in p V : In p (panels_of V) <-> panel_in p V.
Proof.
  unfold panels_of, panel_in. rewrite in_flat_map. split.
  - intros (l & Hl & Hp). destruct l as [|ps|own]; try contradiction. exists ps. split; assumption.
  - intros (ps & Hl & Hp). exists (Panels ps). split; assumption.
Qed.

Lemma mapM_spec {A B} (f : A -> res B) l ys : mapM f l = Ok ys <-> Forall2 (fun a b => f a = Ok b) l ys.
Proof.
  revert ys. induction l as [|a l IH]; intros ys; cbn.
  - split; [intro H; injection H as <-; constructor | intro H; inversion H; reflexivity].
  - split.
    + destruct (f a) as [b|e] eqn:E; cbn; [|discriminate]. destruct (mapM f l) as [bs|e] eqn:E2; cbn; [|discriminate].
      intro H; injection H as <-. constructor; [exact E|]. apply IH. reflexivity.
    + intro H. inversion H as [|? b ? bs Hb Hbs]; subst. rewrite Hb. cbn. apply IH in Hbs. rewrite Hbs. reflexivity.
Qed.

Lemma opt_of_ok get d V o :
  opt_of get d V = Ok o <-> exists ps, o = [Group ps d] /\ ps <> [] /\ Forall2 (fun a b => get a = Ok b) (panels_of V) ps.
Proof.
  unfold opt_of. split.
  - destruct (mapM get (panels_of V)) as [ps|e] eqn:E; cbn; [|discriminate]. apply mapM_spec in E.
    destruct ps as [|p ps]; cbn; [discriminate|]. intro H; injection H as <-.
    exists (p :: ps). split; [reflexivity|]. split; [discriminate|exact E].
  - intros (ps & -> & N & F). apply mapM_spec in F. rewrite F. cbn. destruct ps; [congruence|reflexivity].
Qed.

Lemma F2_get {get : pan -> res param} {l ps} : Forall2 (fun a b => get a = Ok b) l ps -> forall q, In q ps <-> exists p, In p l /\ get p = Ok q.
Proof.
  induction 1 as [|a b l ps E F IH]; intro q; cbn.
  - split; [contradiction | intros (p & [] & _)].
  - rewrite IH. split.
    + intros [->|(p & Hp & E')]; [exists a; auto | exists p; auto].
    + intros (p & [->|Hp] & E'); [left; congruence | right; exists p; auto].
Qed.

Lemma F2_total (get : pan -> res param) l : (forall p, In p l -> exists q, get p = Ok q) -> exists ps, Forall2 (fun a b => get a = Ok b) l ps.
Proof.
  induction l as [|a l IH]; intro H; [exists []; constructor|].
  destruct (H a (or_introl eq_refl)) as [q Hq]. destruct IH as [ps Hps]; [intros p Hp; apply H; right; exact Hp|].
  exists (q :: ps). constructor; assumption.
Qed.
Lemma F2_nonempty {get : pan -> res param} {l ps} : Forall2 (fun a b => get a = Ok b) l ps -> (l <> [] <-> ps <> []).
Proof. destruct 1; split; congruence. Qed.

Lemma rect_get p : rect p -> exists xy z s, p = Rect xy z s.
Proof. destruct p; cbn; [intros _; eauto | contradiction]. Qed.
Lemma heat_get p : heat p -> exists a b c d, p = Heat a b c d.
Proof. destruct p; cbn; [contradiction | intros _; eauto]. Qed.

(* ---- each object once ---- *)
Lemma once_sub seen l p : In p (once seen l) -> In p l.
Proof.
  revert seen. induction l as [|a l IH]; intros seen; cbn; [tauto|].
  destruct (existsb (Nat.eqb (p_id a)) seen).
  - intro H. right. eapply IH. exact H.
  - intros [->|H]; [left; reflexivity | right; eapply IH; exact H].
Qed.
Lemma seen_in i seen : existsb (Nat.eqb i) seen = true <-> In i seen.
Proof.
  rewrite existsb_exists. split; [intros (x & Hx & E); apply Nat.eqb_eq in E; subst; exact Hx | intro H; exists i; split; [exact H | apply Nat.eqb_refl]].
Qed.
Lemma once_nodup seen l : NoDup (map p_id (once seen l)) /\ forall p, In p (once seen l) -> ~ In (p_id p) seen.
Proof.
  revert seen. induction l as [|a l IH]; intros seen; cbn; [split; [constructor|tauto]|].
  destruct (existsb (Nat.eqb (p_id a)) seen) eqn:E; [apply IH|].
  destruct (IH (p_id a :: seen)) as [N S]. split.
  - cbn. constructor; [|exact N]. rewrite in_map_iff. intros (p & Ep & Hp). apply (S p Hp). left. congruence.
  - intros p [<-|H]; [|intro Hs; apply (S p H); right; exact Hs].
    intro Hs. apply seen_in in Hs. congruence.
Qed.
Lemma once_ids seen l i : In i (map p_id l) -> ~ In i seen -> In i (map p_id (once seen l)).
Proof.
  revert seen. induction l as [|a l IH]; intros seen; cbn; [tauto|]. intros [<-|H] N.
  - destruct (existsb (Nat.eqb (p_id a)) seen) eqn:E; [apply seen_in in E; contradiction | left; reflexivity].
  - destruct (existsb (Nat.eqb (p_id a)) seen) eqn:E; [apply IH; assumption|].
    destruct (Nat.eq_dec (p_id a) i) as [EQ|NE]; [left; exact EQ|]. right. apply IH; [exact H|]. intros [E'|Hs]; [congruence|contradiction].
Qed.

Definition places (V : vol) : list param :=
  match vo_budget V with Some b => [b] | None => [] end ++ flat_map lay_params (vo_layers V).
Lemma pan_params_in p q : In q (pan_params p) <-> In q (of_panel p).
Proof. destruct p; cbn; tauto. Qed.
Lemma places_in V q : In q (places V) <-> In q (objects V).
Proof.
  unfold places, objects. rewrite !in_app_iff, !in_flat_map.
  assert (E : forall l, In q (lay_params l) <-> In q match l with Passive => [] | Panels ps => flat_map of_panel ps | Other own => own end).
  { intros [|ps|own]; cbn; try tauto. rewrite !in_flat_map. split; intros (p & Hp & Hq); exists p; (split; [exact Hp|]); apply pan_params_in; exact Hq. }
  split; (intros [H|(l & Hl & H)]; [left; exact H | right; exists l; split; [exact Hl | apply E; exact H]]).
Qed.
Lemma inj_ids l (p q : param) : NoDup (map p_id l) -> In p l -> In q l -> p_id p = p_id q -> p = q.
Proof.
  induction l as [|a l IH]; cbn; [tauto|]. intros N [->|Hp] [->|Hq] E; inversion N as [|? ? NI ND]; subst.
  - reflexivity.
  - exfalso. apply NI. rewrite E. apply in_map. exact Hq.
  - exfalso. apply NI. rewrite <- E. apply in_map. exact Hp.
  - apply IH; assumption.
Qed.
Lemma parameters_in V q : separate V -> (In q (parameters V) <-> In q (objects V)).
Proof.
  intro S. unfold parameters. fold (places V). split.
  - intro H. apply places_in. eapply once_sub. exact H.
  - intro H. assert (I : In (p_id q) (map p_id (once [] (places V)))).
    { apply once_ids; [apply in_map, places_in, H | intros []]. }
    apply in_map_iff in I. destruct I as (p & E & Hp). assert (p = q) as <-; [|exact Hp].
    apply (inj_ids (objects V)); [exact S | apply places_in; eapply once_sub; exact Hp | exact H | exact E].
Qed.
Lemma parameters_nodup V : NoDup (map p_id (parameters V)).
Proof. apply once_nodup. Qed.

(* ---- optimisers ---- *)
Lemma nodup_app_l {A} (l m : list A) : NoDup (l ++ m) -> NoDup l.
Proof. intro H. induction l as [|a l IH]; [constructor|]. cbn in H. inversion H as [|? ? NI ND]; subst. constructor; [|apply IH; exact ND]. intro Ha. apply NI, in_or_app. left; exact Ha. Qed.
Lemma nodup_app_r {A} (l m : list A) : NoDup (l ++ m) -> NoDup m.
Proof. induction l as [|a l IH]; cbn; [trivial|]. intro H. inversion H; subst. apply IH; assumption. Qed.

Lemma count_split3 (l : list pan) (xs zs ss : list param) :
  Forall2 (fun a b => get_xy a = Ok b) l xs -> Forall2 (fun a b => get_z a = Ok b) l zs -> Forall2 (fun a b => get_span a = Ok b) l ss ->
  Permutation (flat_map of_panel l) (xs ++ zs ++ ss).
Proof.
  intros FX. revert zs ss. induction FX as [|a x l xs E F IH]; intros zs ss FZ FS.
  - inversion FZ; subst. inversion FS; subst. constructor.
  - inversion FZ as [|? z ? zs' Ez FZ']; subst. inversion FS as [|? s ? ss' Es FS']; subst.
    destruct a as [x' z' s'|]; [|discriminate]. cbn in E, Ez, Es. injection E as ->. injection Ez as ->. injection Es as ->. cbn.
    constructor. specialize (IH zs' ss' FZ' FS').
    transitivity (z :: s :: xs ++ zs' ++ ss'); [do 2 constructor; exact IH|].
    transitivity (z :: xs ++ zs' ++ s :: ss'); [|apply Permutation_middle].
    constructor. rewrite !app_assoc. apply Permutation_middle.
Qed.
Lemma count_split4 (l : list pan) (ms ns ss zs : list param) :
  Forall2 (fun a b => get_mu a = Ok b) l ms -> Forall2 (fun a b => get_norm a = Ok b) l ns -> Forall2 (fun a b => get_sig a = Ok b) l ss ->
  Forall2 (fun a b => get_z a = Ok b) l zs -> Permutation (flat_map of_panel l) (ms ++ ns ++ ss ++ zs).
Proof.
  intros FX. revert ns ss zs. induction FX as [|a m l ms E F IH]; intros ns ss zs FN FS FZ.
  - inversion FN; subst. inversion FS; subst. inversion FZ; subst. constructor.
  - inversion FN as [|? n ? ns' En FN']; subst. inversion FS as [|? s ? ss' Es FS']; subst. inversion FZ as [|? z ? zs' Ez FZ']; subst.
    destruct a as [|m' s' n' z']; [discriminate|]. cbn in E, En, Es, Ez. injection E as ->. injection Ez as ->. injection Es as ->. injection En as ->. cbn.
    constructor. specialize (IH ns' ss' zs' FN' FS' FZ').
    transitivity (s :: n :: z :: ms ++ ns' ++ ss' ++ zs'); [do 3 constructor; exact IH|].
    transitivity (n :: s :: z :: ms ++ ns' ++ ss' ++ zs'); [constructor|].
    transitivity (n :: ms ++ ns' ++ (s :: ss') ++ z :: zs'); [|apply Permutation_middle].
    constructor.
    transitivity (s :: ms ++ ns' ++ ss' ++ z :: zs').
    + constructor. rewrite !app_assoc. apply Permutation_middle.
    + cbn. rewrite !(app_assoc ms ns'). apply Permutation_middle.
Qed.

Lemma panels_objects V : exists rest,
  Permutation (objects V) (match vo_budget V with Some b => [b] | None => [] end ++ flat_map of_panel (panels_of V) ++ rest) /\
  ((forall own, ~ In (Other own) (vo_layers V)) -> rest = []).
Proof.
  unfold objects, panels_of. set (b := match vo_budget V with Some b => [b] | None => [] end). clearbody b.
  assert (G : exists rest, Permutation (flat_map (fun l => match l with Passive => [] | Panels ps => flat_map of_panel ps | Other own => own end) (vo_layers V))
     (flat_map of_panel (flat_map (fun l => match l with Panels ps => ps | _ => [] end) (vo_layers V)) ++ rest) /\
     ((forall own, ~ In (Other own) (vo_layers V)) -> rest = [])).
  { induction (vo_layers V) as [|l ls (rest & P & N)]; cbn; [exists []; split; [constructor|trivial]|].
    destruct l as [|ps|own].
    - exists rest. split; [exact P|]. intro H. apply N. intros o Ho. apply (H o). right; exact Ho.
    - exists rest. split.
      + rewrite flat_map_app, <- app_assoc. apply Permutation_app_head. exact P.
      + intro H. apply N. intros o Ho. apply (H o). right; exact Ho.
    - exists (own ++ rest). split.
      + rewrite P. cbn. rewrite !app_assoc. apply Permutation_app_tail, Permutation_app_comm.
      + intro H. exfalso. apply (H own). left; reflexivity. }
  destruct G as (rest & P & N). exists rest. split; [|exact N]. apply Permutation_app_head. exact P.
Qed.

(* ---- dictionaries ---- *)
Lemma dget_dset_same {A} k (a : A) d : dget k (dset k a d) = Ok a.
Proof.
  induction d as [|[k' b] d IH]; cbn; [rewrite String.eqb_refl; reflexivity|].
  destruct (String.eqb k' k) eqn:E; cbn; rewrite E; [reflexivity | exact IH].
Qed.
Lemma dget_dset_other {A} k k' (a : A) d : k' <> k -> dget k' (dset k a d) = dget k' d.
Proof.
  intro N. induction d as [|[k2 b] d IH]; cbn.
  - destruct (String.eqb k k') eqn:E; [apply String.eqb_eq in E; congruence | reflexivity].
  - destruct (String.eqb k2 k) eqn:E; cbn; destruct (String.eqb k2 k') eqn:E'; try reflexivity; try exact IH.
    apply String.eqb_eq in E, E'. congruence.
Qed.
Lemma dhas_get {A} k (d : list (string * A)) : dhas k d = true <-> exists a, dget k d = Ok a.
Proof.
  unfold dhas. induction d as [|[k' b] d IH]; cbn; [split; [discriminate | intros [a H]; discriminate]|].
  destruct (String.eqb k' k) eqn:E; cbn; [split; [intros _; exists b; reflexivity | reflexivity] | exact IH].
Qed.
Lemma dhas_dset {A} k k' (a : A) d : dhas k' (dset k a d) = String.eqb k k' || dhas k' d.
Proof.
  unfold dhas. induction d as [|[k2 b] d IH]; cbn; [reflexivity|].
  destruct (String.eqb k2 k) eqn:E; cbn.
  - apply String.eqb_eq in E. subst. destruct (String.eqb k k'); reflexivity.
  - rewrite IH. destruct (String.eqb k2 k'), (String.eqb k k'); reflexivity.
Qed.

(* ---- a step ---- *)
Section StepP.
Context {W : Type}.
Variable rule : settings -> param -> W -> W.
(* the updates of a step, one after the other *)
Definition jobs (os : opts) : list (settings * param) :=
  flat_map (fun no => flat_map (fun g => map (fun p => (g_set g, p)) (g_params g)) (snd no)) os.
Definition job (m : nat -> W) (j : settings * param) : nat -> W := upd m (p_id (snd j)) (rule (fst j) (snd j) (m (p_id (snd j)))).
Lemma fold_map {A B C} (f : C -> B -> C) (g : A -> B) l c : fold_left f (map g l) c = fold_left (fun c a => f c (g a)) l c.
Proof. revert c. induction l as [|a l IH]; intro c; cbn; [reflexivity | apply IH]. Qed.
Lemma fold_flat {A B C} (f : C -> B -> C) (g : A -> list B) l c : fold_left f (flat_map g l) c = fold_left (fun c a => fold_left f (g a) c) l c.
Proof. revert c. induction l as [|a l IH]; intro c; cbn; [reflexivity | rewrite fold_left_app; apply IH]. Qed.
Lemma fold_ext {A C} (f g : C -> A -> C) l c : (forall c a, f c a = g c a) -> fold_left f l c = fold_left g l c.
Proof. intro E. revert c. induction l as [|a l IH]; intro c; cbn; [reflexivity | rewrite E; apply IH]. Qed.
Lemma step_jobs os m : step_all rule os m = fold_left job (jobs os) m.
Proof.
  unfold step_all, jobs. rewrite fold_flat. apply fold_ext. intros c [n o]. cbn. unfold step_opt. rewrite fold_flat.
  apply fold_ext. intros c' g. unfold step_group. rewrite fold_map. apply fold_ext. reflexivity.
Qed.
Lemma jobs_owned os : map snd (jobs os) = owned os.
Proof.
  unfold jobs, owned, owns. induction os as [|[n o] os IH]; cbn; [reflexivity|]. rewrite map_app, IH. f_equal.
  induction o as [|g o IHo]; cbn; [reflexivity|]. rewrite map_app, IHo, map_map. f_equal. apply map_id.
Qed.
Lemma jobs_out js m i : ~ In i (map (fun j => p_id (snd j)) js) -> fold_left job js m i = m i.
Proof.
  revert m. induction js as [|j js IH]; intros m N; cbn; [reflexivity|]. rewrite IH; [|intro H; apply N; right; exact H].
  unfold job, upd. destruct (Nat.eqb i (p_id (snd j))) eqn:E; [|reflexivity]. apply Nat.eqb_eq in E. exfalso. apply N. left. congruence.
Qed.
Lemma jobs_in js m j : NoDup (map (fun j => p_id (snd j)) js) -> In j js ->
  fold_left job js m (p_id (snd j)) = rule (fst j) (snd j) (m (p_id (snd j))).
Proof.
  revert m. induction js as [|j' js IH]; intros m N I; [destruct I|].
  destruct I as [->|H]; cbn; inversion N as [|? ? NI ND]; subst.
  - rewrite jobs_out by exact NI. unfold job, upd. rewrite Nat.eqb_refl. reflexivity.
  - rewrite IH by assumption. f_equal. unfold job, upd. destruct (Nat.eqb (p_id (snd j)) (p_id (snd j'))) eqn:E; [|reflexivity].
    apply Nat.eqb_eq in E. exfalso. apply NI. rewrite <- E. apply (in_map (fun j => p_id (snd j))). exact H.
Qed.
End StepP.
