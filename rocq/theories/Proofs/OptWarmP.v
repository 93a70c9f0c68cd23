(* Proofs for C91. *)
From Coq Require Import Reals Lra Lia List Bool String.
From Verif Require Import Base.RUtil Model.Fit Model.Warmup Model.WarmOwn Spec.FitSpec Spec.ReplaySpec Spec.WarmupSpec Spec.WarmOwnSpec Proofs.FitP Proofs.WarmupP Proofs.WarmOwnP Proofs.CostWarmP Base.XR.
Import ListNotations.
Open Scope list_scope.
Open Scope nat_scope.

(* ---- dictionaries ---- *)
Lemma lookup_in {A} (d : list (string * A)) k a : maps_to d k a -> lookup k d = Some a.
Proof.
  intros [H N]. induction d as [|[k' b] d IH]; [destruct H|]. cbn [map] in N. inversion N as [|? ? N1 N2]; subst. cbn [lookup]. destruct (String.eqb_spec k k') as [->|X].
  - destruct H as [[= ->]|H]; [reflexivity|]. exfalso. apply N1. apply in_map_iff. exists (k', a). auto.
  - destruct H as [[= ? ?]|H]; [congruence|]. now apply IH.
Qed.
Lemma lookup_some {A} (d : list (string * A)) k : In k (map fst d) -> exists a, lookup k d = Some a.
Proof.
  induction d as [|[k' b] d IH]; [intros []|]. cbn [map lookup In]. destruct (String.eqb_spec k k') as [->|X]; [eauto|]. intros [H|H]; [cbn in H; congruence|auto].
Qed.
Lemma update_keys {A} k (a : A) d : map fst (update_at k a d) = map fst d.
Proof. induction d as [|[k' b] d IH]; [reflexivity|]. cbn [update_at map]. destruct (String.eqb k k'); cbn [map]; [reflexivity|now rewrite IH]. Qed.
Lemma lookup_update {A} k (a : A) d j : In k (map fst d) -> lookup j (update_at k a d) = if String.eqb j k then Some a else lookup j d.
Proof.
  induction d as [|[k' b] d IH]; [intros []|]. cbn [map update_at lookup]. intro H. destruct (String.eqb_spec k k') as [->|X].
  - cbn [lookup]. destruct (String.eqb j k'); reflexivity.
  - destruct H as [H|H]; [cbn in H; congruence|]. cbn [lookup]. destruct (String.eqb_spec j k') as [->|Y].
    + destruct (String.eqb_spec k' k); [congruence|reflexivity].
    + now apply IH.
Qed.
Definition tab {B} (rates : list (string * R)) (f : string -> B) : list (string * B) := map (fun kr => (fst kr, f (fst kr))) rates.
Lemma tab_keys {B} rates (f : string -> B) : map fst (tab rates f) = map fst rates.
Proof. unfold tab. rewrite map_map. reflexivity. Qed.
Lemma tab_lookup {B} rates (f : string -> B) k : In k (map fst rates) -> lookup k (tab rates f) = Some (f k).
Proof.
  induction rates as [|[k' r] rates IH]; [intros []|]. cbn [map tab lookup]. fold (tab rates f). cbn [fst]. destruct (String.eqb_spec k k') as [->|X]; [reflexivity|].
  intros [H|H]; [cbn in H; congruence|]. now apply IH.
Qed.
Lemma tab_ext {B} rates (f g : string -> B) : (forall k, In k (map fst rates) -> f k = g k) -> tab rates f = tab rates g.
Proof. intro H. unfold tab. apply map_ext_in. intros [k r] Hk. cbn. f_equal. apply H. apply in_map_iff. exists (k, r). auto. Qed.
Lemma tab_update {B} rates (f : string -> B) k b : NoDup (map fst rates) -> update_at k b (tab rates f) = tab rates (fun j => if String.eqb j k then b else f j).
Proof.
  induction rates as [|[k' r] rates IH]; [reflexivity|]. cbn [map]. intro N. inversion N as [|? ? N1 N2]; subst. unfold tab. cbn [map update_at fst]. fold (tab rates f).
  destruct (String.eqb_spec k k') as [->|X].
  - rewrite String.eqb_refl. f_equal. change (tab rates f = tab rates (fun j => if String.eqb j k' then b else f j)). apply tab_ext. intros j Hj. destruct (String.eqb_spec j k') as [->|]; [contradiction|reflexivity].
  - destruct (String.eqb_spec k' k); [congruence|]. f_equal. now apply IH.
Qed.
Definition key_in (k : string) (ks : list string) : bool := existsb (String.eqb k) ks.
Lemma key_in_spec k ks : key_in k ks = true <-> In k ks.
Proof. unfold key_in. rewrite existsb_exists. split; [intros (x & H & E); apply String.eqb_eq in E; now subst|]. intro H. exists k. now rewrite String.eqb_refl. Qed.

(* gradients of one update *)
Definition raw (k : string) (g : grads) : list xr := match lookup k g with Some ps => map xabs (concat (map entries ps)) | None => [] end.
Lemma abs_all ps : ~ In None ps -> exists ys, mapM abs_grad ps = Ok ys /\ concat ys = map xabs (concat (map entries ps)).
Proof.
  induction ps as [|[l|] ps IH]; intro N; [exists []; auto| |exfalso; apply N; now left].
  destruct IH as (ys & E & C); [intro X; apply N; now right|]. cbn [mapM abs_grad bind]. rewrite E. cbn [bind]. eexists. split; [reflexivity|]. cbn [concat map entries]. now rewrite map_app, C.
Qed.
Lemma watch_ok rates g f k : NoDup (map fst rates) -> In k (map fst rates) -> graded k g ->
  watch g (tab rates f) k = Ok (tab rates (fun j => if String.eqb j k then f j ++ raw j g else f j)).
Proof.
  intros N Hk (ps & Hps & Hn). unfold watch, WarmOwn.get. rewrite (lookup_in _ _ _ Hps). cbn [bind]. destruct (abs_all ps Hn) as (ys & E & C). rewrite E. cbn [bind].
  rewrite (tab_lookup rates f k Hk). cbn [bind]. rewrite tab_update by exact N. f_equal. apply tab_ext. intros j _. destruct (String.eqb_spec j k) as [->|]; [|reflexivity].
  unfold raw. now rewrite (lookup_in _ _ _ Hps), C.
Qed.
Lemma watch_all rates g : NoDup (map fst rates) -> (forall k, In k (map fst rates) -> graded k g) -> forall ks f, NoDup ks -> incl ks (map fst rates) ->
  foldM (watch g) ks (tab rates f) = Ok (tab rates (fun j => if key_in j ks then f j ++ raw j g else f j)).
Proof.
  intros N G. induction ks as [|k ks IH]; intros f Nk Hi; [reflexivity|]. inversion Nk as [|? ? N1 N2]; subst.
  cbn [foldM]. assert (In k (map fst rates)) as Hk by (apply Hi; now left). rewrite watch_ok by auto. cbn [bind]. rewrite IH; [|exact N2|intros j Hj; apply Hi; now right].
  f_equal. apply tab_ext. intros j _. unfold key_in. cbn [existsb]. fold (key_in j ks). destruct (String.eqb_spec j k) as [->|]; cbn [orb]; [|reflexivity].
  destruct (key_in k ks) eqn:X; [apply key_in_spec in X; contradiction|reflexivity].
Qed.
(* learning rates *)
Lemma set_all rates f lrs : NoDup (map fst rates) -> incl (map fst rates) (map fst lrs) ->
  exists lrs', foldM (set_rate rates) (tab rates f) lrs = Ok lrs' /\ map fst lrs' = map fst lrs /\
    (forall k r, In (k, r) rates -> lookup k lrs' = Some (xdiv (Fin r) (np_nanmedian (f k)))) /\
    (forall k, ~ In k (map fst rates) -> lookup k lrs' = lookup k lrs).
Proof.
  intros N Hi.
  assert (G : forall part lrs, incl part rates -> NoDup (map fst part) -> incl (map fst part) (map fst lrs) ->
    exists lrs', foldM (set_rate rates) (tab part f) lrs = Ok lrs' /\ map fst lrs' = map fst lrs /\
    (forall k r, In (k, r) part -> lookup k lrs' = Some (xdiv (Fin r) (np_nanmedian (f k)))) /\
    (forall k, ~ In k (map fst part) -> lookup k lrs' = lookup k lrs)).
  { clear lrs Hi. induction part as [|[k r] part IH]; intros lrs Hp Np Hi.
    - exists lrs. cbn. repeat split; auto. intros k r [].
    - cbn [map] in Np. inversion Np as [|? ? N1 N2]; subst. cbn [fst] in *.
      assert (lookup k rates = Some r) as E1 by (apply lookup_in; split; [apply Hp; now left|exact N]).
      assert (In k (map fst lrs)) as E2 by (apply Hi; now left). destruct (lookup_some lrs k E2) as (old & E3).
      unfold tab. cbn [map foldM]. fold (tab part f). unfold set_rate at 1, WarmOwn.get. cbn [fst snd]. rewrite E1. cbn [bind]. rewrite E3. cbn [bind].
      destruct (IH (update_at k (xdiv (Fin r) (np_nanmedian (f k))) lrs)) as (lrs' & R & K & A & B).
      + intros y Hy. apply Hp. now right.
      + exact N2.
      + intros y Hy. rewrite update_keys. apply Hi. now right.
      + exists lrs'. split; [exact R|]. split; [now rewrite K, update_keys|]. split.
        * intros j s [[= <- <-]|Hj]; [|now apply A]. rewrite B by exact N1. rewrite lookup_update by exact E2. now rewrite String.eqb_refl.
        * intros j Hj. cbn [map In fst] in Hj. rewrite B by tauto. rewrite lookup_update by exact E2. destruct (String.eqb_spec j k) as [->|]; [tauto|reflexivity]. }
  apply G; auto. apply incl_refl.
Qed.
Lemma raw_sizes k gs : (forall g, In g gs -> graded k g) -> filter (fun x => negb (xisnan x)) (flat_map (raw k) gs) = sizes k gs.
Proof.
  intro H. unfold sizes. f_equal. induction gs as [|g gs IH]; [reflexivity|]. cbn [flat_map concat]. rewrite filter_app, map_app, concat_app, map_app, concat_app, map_app, IH by (intros; apply H; now right).
  f_equal. destruct (H g (or_introl eq_refl)) as (ps & Hp & _). unfold raw. rewrite (lookup_in _ _ _ Hp). do 3 f_equal. destruct Hp as [Hi N]. clear - Hi N. induction g as [|[k' b] g IH]; [destruct Hi|].
  cbn [map] in N. inversion N as [|? ? N1 N2]; subst. cbn [filter fst]. destruct (String.eqb_spec k' k) as [->|X].
  - destruct Hi as [[= ->]|Hi]; [|exfalso; apply N1; apply in_map_iff; exists (k, ps); auto]. cbn [map snd concat].
    enough (filter (fun kp => String.eqb (fst kp) k) g = []) as -> by (cbn; now rewrite app_nil_r). clear - N1. induction g as [|[j b] g IH]; [reflexivity|]. cbn [filter fst map] in *.
    destruct (String.eqb_spec j k) as [->|]; [exfalso; apply N1; now left|]. apply IH. intro Y. apply N1. now right.
  - destruct Hi as [[= ? ?]|Hi]; [congruence|]. now apply IH.
Qed.

Section Opt.
Context {I P : Type}.
Variables (l0 : list slot) (c : cfg) (q len cnt0 : nat) (on0 : bool) (rates : list (string * R)).
Hypothesis Hc : c_cbs c = places l0.
Hypothesis Hq : nth_error l0 q = Some (SWarm len cnt0 on0).
Hypothesis Hr : NoDup (map fst rates).
Notation items := (list (item I P)).
Notation own := (opt_own rates).
Notation srun := (@scan_run I P optc q (@opt_feed I P) own).
Notation son := (@scan_on I P optc l0 c q len cnt0 on0 Hc Hq (@opt_feed I P) own).

Definition opt_calm_event (e : event) : bool := match e with TrainBegin | BackwardsEnd | EpochEnd => false | _ => true end.
Definition opt_calm (t : bool) (i : item I P) : Prop :=
  match i with Call _ e => opt_calm_event e = true | ZeroGrad => False | _ => True end.
Lemma opt_calm_run s t (l : items) o : Forall (opt_calm t) l -> srun s t l o = Ok o.
Proof.
  induction 1 as [|i l Hi F IH]; [reflexivity|]. rewrite scan_cons. destruct i; try contradiction; cbn [scan_step opt_feed bind]; auto.
  destruct (Nat.eqb cb q); cbn [bind]; auto. destruct e; try discriminate; exact IH.
Qed.
Lemma opt_calm_on t e : opt_calm_event e = true -> Forall (opt_calm t) (on c e : items).
Proof. intro H. apply Forall_forall. intros x Hx. apply in_map_iff in Hx as [k [<- _]]. exact H. Qed.
Ltac calm := repeat first [ apply Forall_app; split | apply opt_calm_on; reflexivity | constructor; [exact Logic.I|] | constructor
  | match goal with |- Forall _ (if ?x then _ else _) => destruct x | |- Forall _ (match ?x with _ => _ end) => destruct x end ].
Lemma opt_mus t n : Forall (opt_calm t) (concat (repeat (doc_mu c : items) n)).
Proof. induction n as [|n IH]; [constructor|]. cbn [repeat concat]. apply Forall_app. split; [|exact IH]. unfold doc_mu. calm. Qed.
Lemma opt_vols t (vs : list (vol I P)) : Forall (opt_calm t) (flat_map (doc_vol c) vs).
Proof.
  induction vs as [|v vs IH]; [constructor|]. cbn [flat_map]. apply Forall_app. split; [|exact IH]. unfold doc_vol. 
  repeat first [ apply opt_mus | apply Forall_app; split | apply opt_calm_on; reflexivity | constructor; [exact Logic.I|] | constructor ]. destruct (v_loss v); calm.
Qed.
(* what a part of a scan does, given the gradients of its updates *)
Definition odoes (s : slot) (t : bool) (l : items) (d : list grads) : Prop := forall o rest f, p_next o = d ++ rest -> p_stats o = tab rates f ->
  (is_active s && t = true -> forall k g, In k (map fst rates) -> In g d -> graded k g) ->
  exists o', srun s t l o = Ok o' /\ p_stats o' = tab rates (fun k => f k ++ (if is_active s && t then flat_map (raw k) d else [])) /\ p_lr o' = p_lr o /\ p_next o' = rest.
Lemma odoes_calm s t l : Forall (opt_calm t) l -> odoes s t l [].
Proof.
  intros F o rest f H1 H2 _. exists o. rewrite opt_calm_run by exact F. split; [reflexivity|]. split; [|auto]. rewrite H2. apply tab_ext. intros k _. destruct (is_active s && t); cbn; now rewrite app_nil_r.
Qed.
Lemma odoes_app s t l m d e : odoes s t l d -> odoes s t m e -> odoes s t (l ++ m) (d ++ e).
Proof.
  intros A B o rest f H1 H2 H3. rewrite <- app_assoc in H1. destruct (A o _ f H1 H2) as (o1 & R1 & E1 & C1 & N1); [intros X k g Hk Hg; apply H3; auto; apply in_or_app; auto|].
  destruct (B o1 _ _ N1 E1) as (o2 & R2 & E2 & C2 & N2); [intros X k g Hk Hg; apply H3; auto; apply in_or_app; auto|].
  exists o2. rewrite scan_app, R1. cbn [bind]. split; [exact R2|]. split; [|rewrite C2; auto]. rewrite E2. apply tab_ext. intros k _. destruct (is_active s && t); [now rewrite flat_map_app, app_assoc|now rewrite !app_nil_r].
Qed.
Lemma odoes_update s t skip m g : odoes s t (doc_update c skip m) [g].
Proof.
  intros o rest f H1 H2 H3. unfold doc_update. cbn [app]. rewrite scan_cons. cbn [scan_step opt_feed bind]. rewrite H1. cbn [app].
  rewrite scan_app, opt_calm_run by calm. cbn [bind]. rewrite scan_app, opt_calm_run by calm. cbn [bind]. rewrite scan_app, son. cbn [opt_own p_grads p_stats].
  assert (C : forall o', srun s t ((if skip then [] else match m with Some _ => [Step] | None => [] end) ++ on c StepEnd ++ [Conform]) o' = Ok o') by (intro o'; apply opt_calm_run; calm).
  destruct (is_active s && t) eqn:A.
  - rewrite H2, watch_all; auto; [|intros k Hk; apply H3; auto; now left|apply incl_refl]. cbn [bind]. rewrite C. eexists. split; [reflexivity|]. cbn [p_stats p_lr p_next]. split; [|auto].
    apply tab_ext. intros k Hk. rewrite (proj2 (key_in_spec k _) Hk). cbn [flat_map]. now rewrite app_nil_r.
  - cbn [bind]. rewrite C. eexists. split; [reflexivity|]. cbn [p_stats p_lr p_next]. split; [|auto]. rewrite H2. apply tab_ext. intros; now rewrite app_nil_r.
Qed.
Lemma odoes_batch s t skip (vs : list (vol I P)) g : odoes s t (doc_batch c true skip vs) [g].
Proof.
  unfold doc_batch, doc_end. change [g] with (([] ++ []) ++ ([] ++ [g])). rewrite app_assoc. apply odoes_app; [apply odoes_calm; apply Forall_app; split; [calm|apply opt_vols]|].
  rewrite app_assoc. apply odoes_app; [apply odoes_calm; calm|apply odoes_update].
Qed.
Lemma odoes_batch_valid s t skip (vs : list (vol I P)) : odoes s t (doc_batch c false skip vs) [].
Proof. unfold doc_batch, doc_end. apply odoes_calm. apply Forall_app; split; [calm|apply Forall_app; split; [apply opt_vols|calm]]. Qed.
Lemma odoes_scan s t skip (sc : scan I P) d : length d = length (sc_batches sc) -> odoes s t (doc_scan c true skip sc) d.
Proof.
  intro Hd. unfold doc_scan. rewrite <- (app_nil_r d). apply odoes_app.
  - revert d Hd. induction (sc_batches sc) as [|vs bss IH]; intros d Hd; [destruct d; [|discriminate]; apply odoes_calm; constructor|].
    destruct d as [|g d]; [discriminate|]. cbn [flat_map]. change (g :: d) with ([g] ++ d). apply odoes_app; [apply odoes_batch|]. apply IH. now injection Hd.
  - destruct (sc_rest sc); [apply odoes_calm; constructor|]. apply odoes_calm. apply Forall_app; split; [calm|apply opt_vols].
Qed.
Lemma odoes_scan_valid s t skip (sc : scan I P) : odoes s t (doc_scan c false skip sc) [].
Proof.
  unfold doc_scan. change (@nil grads) with (@nil grads ++ []). apply odoes_app.
  - induction (sc_batches sc) as [|vs bss IH]; [apply odoes_calm; constructor|]. cbn [flat_map]. change (@nil grads) with (@nil grads ++ []). apply odoes_app; [apply odoes_batch_valid|exact IH].
  - destruct (sc_rest sc); [apply odoes_calm; constructor|]. apply odoes_calm. apply Forall_app; split; [calm|apply opt_vols].
Qed.

Variable xs : list (epoch I P).
Variable gs : list (list grads).
Variable lr0 : list (string * xr).
Hypothesis HG : Forall2 grads_of xs gs.
Notation st := (start l0 q).
Hypothesis Hall : forall k g, In k (map fst rates) -> In g (concat (window st len (st + len) gs)) -> graded k g.
Hypothesis Hlr : incl (map fst rates) (map fst lr0).
Definition lr_after (i : nat) (lr : list (string * xr)) : Prop :=
  map fst lr = map fst lr0 /\
  (forall k r, In (k, r) rates -> 0 < len /\ st + len <= i -> lookup k lr = Some (xdiv (Fin r) (np_median (sizes k (concat (window st len i gs)))))) /\
  (forall k, ~ In k (map fst rates) \/ ~ (0 < len /\ st + len <= i) -> lookup k lr = lookup k lr0).
Definition opt_inv (i : nat) (o : optc) : Prop :=
  p_stats o = tab rates (fun k => flat_map (raw k) (concat (window st len i gs))) /\ lr_after i (p_lr o) /\ p_next o = concat (skipn i gs).
Lemma in_window {A} (l : list A) s n i j x : nth_error l j = Some x -> s <= j < s + n -> j < i -> In x (window s n i l).
Proof.
  intros H Hj Hi. unfold window. assert (nth_error (skipn s l) (j - s) = Some x) as E by (rewrite nth_skip; now replace (s + (j - s)) with j by lia).
  rewrite <- (firstn_skipn (Nat.min n (i - s)) (skipn s l)) in E. rewrite nth_error_app1 in E; [eapply nth_error_In; eauto|].
  rewrite firstn_length. apply Nat.min_glb_lt; [lia|]. apply nth_error_Some. rewrite firstn_skipn in E. congruence.
Qed.
Lemma window_incl {A} (l : list A) s n i x : In x (window s n i l) -> In x (window s n (s + n) l).
Proof.
  unfold window. replace (Nat.min n (s + n - s)) with n by lia. intro H. 
  replace (firstn (Nat.min n (i - s)) (skipn s l)) with (firstn (Nat.min n (i - s)) (firstn n (skipn s l))) in H by (rewrite firstn_firstn; f_equal; lia).
  rewrite <- (firstn_skipn (Nat.min n (i - s)) (firstn n (skipn s l))). apply in_or_app. now left.
Qed.
Lemma opt_epoch i x o : nth_error xs i = Some x -> opt_inv i o ->
  exists o1 o2, srun (slot_at l0 q len i) true (doc_scan c true (ep_skip x) (ep_train x)) o = Ok o1 /\ own EpochEnd (slot_at l0 q len i) (slot_end l0 q len i) true o1 = Ok o2 /\
    match ep_valid x with
    | Some s => forall sl, exists o3, srun sl false (doc_scan c false (ep_skip x) s) o2 = Ok o3 /\ opt_inv (S i) o3
    | None => opt_inv (S i) o2 end.
Proof.
  intros Hx (E & L & N).
  assert (exists d, nth_error gs i = Some d /\ grads_of x d) as (d & Hd & D1).
  { clear - HG Hx. revert i Hx. induction HG as [|y d ys ds' H F IH]; intros [|i] Hx; try discriminate; [injection Hx as ->; exists d; now split|]. now apply IH. }
  rewrite (skip_head _ _ _ Hd) in N. cbn [concat] in N.
  destruct (odoes_scan (slot_at l0 q len i) true (ep_skip x) (ep_train x) d D1 o _ _ N E) as (o1 & R1 & E1 & C1 & N1).
  { cbn [slot_at is_active]. rewrite andb_true_r. unfold act. intros A k g Hk Hg. apply andb_prop in A as [A1 A2]. apply Nat.leb_le in A1. apply Nat.ltb_lt in A2.
    apply Hall; [exact Hk|]. apply in_concat. exists d. split; [|exact Hg]. eapply in_window; eauto; lia. }
  exists o1. cbn [slot_at is_active] in E1. rewrite andb_true_r in E1.
  assert (E1' : p_stats o1 = tab rates (fun k => flat_map (raw k) (concat (window st len (S i) gs)))).
  { rewrite E1. apply tab_ext. intros k _. unfold act. destruct (Nat.leb_spec st i), (Nat.ltb_spec i (st + len)); cbn [andb].
    - rewrite (window_in _ _ _ _ _ Hd) by lia. rewrite concat_app, flat_map_app. cbn [concat]. now rewrite app_nil_r.
    - rewrite window_out by lia. apply app_nil_r.
    - rewrite window_out by lia. apply app_nil_r.
    - rewrite window_out by lia. apply app_nil_r. }
  clear E1. rewrite <- C1 in L.
  assert (S' : ~ (act l0 q len i = true /\ st + len <= S i) -> lr_after (S i) (p_lr o1)).
  { intro X. assert (Y : 0 < len /\ st + len <= S i -> st + len <= i).
    { intros [Y1 Y2]. apply Nat.nlt_ge. intro Z. apply X. split; [|exact Y2]. unfold act. rewrite (proj2 (Nat.leb_le _ _)), (proj2 (Nat.ltb_lt _ _)) by lia. reflexivity. }
    destruct L as (L1 & L2 & L3). split; [exact L1|]. split.
    - intros k r Hk W. specialize (Y W). rewrite (L2 k r Hk) by lia. do 3 f_equal. now rewrite window_out by lia.
    - intros k [W|W]; apply L3; [now left|right; lia]. }
  assert (exists o2, own EpochEnd (slot_at l0 q len i) (slot_end l0 q len i) true o1 = Ok o2 /\ p_stats o2 = p_stats o1 /\ p_next o2 = p_next o1 /\ lr_after (S i) (p_lr o2)) as (o2 & R2 & E2 & N2 & A2).
  { unfold slot_end, slot_at. cbn [opt_own is_active is_over]. destruct (act l0 q len i) eqn:A; cbn [andb].
    2: { exists o1. repeat (split; [reflexivity|]). apply S'. intros [X _]. discriminate. }
    pose proof A as A'. unfold act in A'. apply andb_prop in A' as [A1 A2]. apply Nat.leb_le in A1. apply Nat.ltb_lt in A2.
    replace (Nat.min len (i - st)) with (i - st) by lia. destruct (Nat.leb_spec len (S (i - st))).
    - rewrite E1'. destruct L as (L1 & L2 & L3). destruct (set_all rates (fun k => flat_map (raw k) (concat (window st len (S i) gs))) (p_lr o1) Hr) as (lrs & R & K & B1 & B2); [now rewrite L1|].
      rewrite R. cbn [bind]. eexists. split; [reflexivity|]. cbn [p_stats p_lr p_next]. split; [reflexivity|]. split; [reflexivity|]. split; [now rewrite K|]. split.
      + intros k r Hk _. rewrite (B1 k r Hk). unfold np_nanmedian. do 3 f_equal. apply raw_sizes. intros g Hg. apply Hall; [apply in_map_iff; exists (k, r); auto|].
        apply in_concat in Hg as (d' & Hd' & Hg). apply in_concat. exists d'. split; [eapply window_incl; eauto|exact Hg].
      + intros k [W|W]; [|exfalso; apply W; lia]. rewrite B2 by exact W. apply L3. now left.
    - exists o1. repeat (split; [reflexivity|]). apply S'. intros [_ X]. lia. }
  exists o2. split; [exact R1|]. split; [exact R2|]. rewrite <- N2 in N1. unfold opt_inv. destruct (ep_valid x) as [s|].
  - intro sl. destruct (odoes_scan_valid sl false (ep_skip x) s o2 _ _ N1 (eq_trans E2 E1')) as (o3 & R3 & E3 & C3 & N3); [rewrite andb_false_r; discriminate|].
    exists o3. split; [exact R3|]. rewrite E3, C3, N3. split; [|auto]. apply tab_ext. intros k _. now rewrite andb_false_r, app_nil_r.
  - rewrite E2. auto.
Qed.
End Opt.
