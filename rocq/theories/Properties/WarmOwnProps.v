(* Properties C90 and C91: what the warm-up callbacks set. *)
From Coq Require Import Reals Lra Lia List Bool String Permutation Sorted.
From Verif Require Import Base.RUtil Model.Fit Model.Warmup Model.WarmOwn Spec.FitSpec Spec.ReplaySpec Spec.WarmupSpec Spec.WarmOwnSpec Proofs.FitP Proofs.FitCount Proofs.ReplayP Proofs.WarmupP Proofs.WarmOwnP Proofs.CostWarmP Proofs.OptWarmP Properties.WarmupProps Base.XR.
Import ListNotations.
Open Scope list_scope.
Open Scope nat_scope.

(* C90. In a fit with a loss function and a CostCoefWarmup of length len at place q, whatever the other warm-ups: after i epochs the cost coefficient is the median of the
   inference errors of the training volumes with a prediction in the epochs of its window, if the window is over; otherwise it is what it was before the fit, or else
   the first error.  ds: the errors of all evaluations of the loss, by epoch. *)
Theorem C90_coefficient :
  forall W I P (E : env W I P) (obs : W -> list slot) n bs n_mu mu_bs validate a cbs' a' tr q len cnt on,
  let l0 := obs (w_w a) in
  tame E (places l0) -> 0 < bs -> follows E (places l0) obs warm_cb -> has_loss E = true -> nth_error l0 q = Some (SWarm len cnt on) ->
  fit E n bs n_mu mu_bs validate (places l0) a = (Ok cbs', a', tr) ->
  let c := Cfg (places l0) bs n_mu mu_bs in let s := start l0 q in
  exists xs, tr = doc_fit c xs /\
  forall ds o, Forall2 errors_of xs ds -> k_next o = all_errors ds -> forall i t, epochs_done c xs i t ->
  exists v o', warm_run q cost_feed cost_own t (fresh n bs l0, o) = Ok (v, o') /\
    (0 < len /\ s + len <= i -> exists m, k_coef o' = Some m /\ median_of m (train_errors (window s len i ds))) /\
    (~ (0 < len /\ s + len <= i) -> k_coef o' = or_first (k_coef o) (all_errors (firstn i ds))).
Proof.
  intros W I P E obs n bs n_mu mu_bs validate a cbs' a' tr q len cnt on l0 HT Hb HF HL Hq H c s.
  destruct (fit_replay E obs warm_cb _ _ _ _ _ _ _ _ _ _ HT Hb HF H) as (xs & Ht & _ & _ & _ & F & _). fold c in Ht. rewrite HL in F. exists xs. split; [exact Ht|].
  intros ds o HD Hn i t Hi.
  destruct (run_fit l0 c (Some n) (Some bs) q len cnt on eq_refl Hq (@cost_feed I P) cost_own) with (xs := xs) (Q := cost_inv l0 q len ds (k_coef o)) (o := o)
    (o0 := Cost [] (k_coef o) (k_error o) (k_pred o) (k_next o)) (i := i) (t := t) as (v & o' & R & (_ & [C1 C2] & _)); auto.
  - intros e s1 s2 b o1 [-> |[-> | ->]]; reflexivity.
  - intros s1 s2 o1. cbn. now rewrite andb_false_r.
  - intros j x o1. apply (cost_epoch l0 c q len cnt on eq_refl Hq xs ds (k_coef o) F HD).
  - split; [unfold window; cbn [k_errors]; now rewrite Nat.min_0_r|]. split; [|cbn [k_next]; exact Hn]. split; [lia|]. intros _. cbn [firstn all_errors flat_map k_coef]. now destruct (k_coef o).
  - exists v, o'. split; [exact R|]. split; [|exact C2]. intro X. eexists. split; [apply C1; exact X|]. apply median_spec.
Qed.
Print Assumptions C90_coefficient.

(* two warm-ups; the second one, of two epochs, sets the coefficient.  Four epochs of two volumes, one volume for validation *)
Definition C90_slots : list slot := [SWarm 1 0 false; SWarm 2 0 false].
Definition C90_errors : list (list xr * list xr) := map (fun x => (map Fin (fst x), [Fin 9]))%R [([1; 2], tt); ([3; 10], tt); ([5; 4], tt); ([7; 7], tt)]%R.
Definition cost0 (k : option xr) (next : list xr) : cost := Cost [Fin 6] k None true next.
Ltac lt_eval := repeat match goal with |- context [Rleb ?a ?b] => first [rewrite (proj2 (Rleb_true a b)) by lra | rewrite (proj2 (Rleb_false a b)) by lra] end.
Example C90_case_hyps : tame (stage warm_cb 2 1) (places C90_slots) /\ follows (stage warm_cb 2 1) (places C90_slots) (fun s => s) warm_cb.
Proof. split; [apply warm_stage_tame|apply stage_follows]. Qed.
Definition C90_fit := fit (stage warm_cb 2 1) 4 1 2 1 true (places C90_slots) (Wrapper None C90_slots).
Example C90_case : fst (fst C90_fit) = Ok (places C90_slots) /\
  rmap (fun vo => k_coef (snd vo)) (warm_run 1 cost_feed cost_own (snd C90_fit) (fresh 4 1 C90_slots, cost0 None (all_errors C90_errors)))
  = Ok (Some (np_median [Fin 3; Fin 10; Fin 5; Fin 4]%R)).
Proof. split; [vm_compute; reflexivity|]. lazy -[np_median IZR INR Rplus Rmult Rdiv]. reflexivity. Qed.
Example C90_case_median : np_median [Fin 3; Fin 10; Fin 5; Fin 4]%R = Fin (9 / 2)%R.
Proof.
  unfold np_median. cbn [existsb xisnan orb length Nat.eqb Nat.odd Nat.even negb sort_x fold_right insert_x xle]. lt_eval. cbn [insert_x xle]. lt_eval. cbn [insert_x xle]. lt_eval.
  cbn [Nat.odd Nat.even negb]. change (4 / 2) with 2. cbn [Nat.sub nth xadd]. rewrite xdiv_fin by lra. f_equal. lra.
Qed.

(* a fit in which no volume has a prediction *)
Definition blind : env (list slot) nat nat :=
  let E := stage warm_cb 1 1 in
  Fit.Env (e_cb E) (e_len E) (e_next E) (e_load E) (e_inferrer E) (e_generate E) (e_cross E) (e_scatter E) (e_add E) (idle None) (e_loss E)
    (e_zero_grad E) (e_backward E) (e_step E) (e_conform E) (e_train E) (e_eval E) (e_mkdir E) (e_no_shuffle E).
Lemma blind_ok cbs : tame blind cbs /\ follows blind cbs (fun s => s) warm_cb.
Proof.
  split; [exact (warm_stage_tame 1 1 cbs)|]. destruct (stage_follows warm_cb 1 1 cbs) as (A & B & C & D & E' & F). split; [exact A|]. split; [|split; [exact C|split; [|split; [exact E'|exact F]]]].
  - intros i g Hi. apply (B i g). destruct i; exact Hi.
  - now intros w x w' [= _ <-].
Qed.
Lemma rmap_ok {A B} (f : A -> B) x y : rmap f x = Ok y -> exists v, x = Ok v /\ f v = y.
Proof. destruct x as [v|]; [|discriminate]. intros [= H]. eauto. Qed.
Lemma pair3 {A B C} (x : A * B * C) r : fst (fst x) = r -> x = (r, snd (fst x), snd x).
Proof. destruct x as [[a b] c]. now intros <-. Qed.
Lemma blind_fst : fst (fst (fit blind 2 1 2 1 true (places [SWarm 1 0 false]) (Wrapper None [SWarm 1 0 false]))) = Ok [0].
Proof. vm_compute. reflexivity. Qed.
Lemma blind_coef : rmap (fun vo => k_coef (snd vo)) (warm_run 0 cost_feed cost_own (snd (fit blind 2 1 2 1 true (places [SWarm 1 0 false]) (Wrapper None [SWarm 1 0 false]))) (fresh 2 1 [SWarm 1 0 false], Cost [] (Some (Fin 1)) None false [])) = Ok (Some NaN).
Proof. lazy -[IZR INR Rplus Rmult Rdiv]. reflexivity. Qed.
(* C90 is false without predictions: the coefficient, given as 1, becomes NaN *)
Theorem C90_blind_refuted :
  exists (E : env (list slot) nat nat) l0 a cbs' a' tr v o',
  tame E (places l0) /\ follows E (places l0) (fun s => s) warm_cb /\ has_loss E = true /\ nth_error l0 0 = Some (SWarm 1 0 false) /\ w_w a = l0 /\
  fit E 2 1 2 1 true (places l0) a = (Ok cbs', a', tr) /\
  warm_run 0 cost_feed cost_own tr (fresh 2 1 l0, Cost [] (Some (Fin 1)) None false []) = Ok (v, o') /\ k_coef o' = Some NaN.
Proof.
  destruct (rmap_ok _ _ _ blind_coef) as ([v o'] & Er & Hk). destruct (blind_ok [0]) as [HT HF].
  exists blind, [SWarm 1 0 false], (Wrapper None [SWarm 1 0 false]), [0], (snd (fst (fit blind 2 1 2 1 true (places [SWarm 1 0 false]) (Wrapper None [SWarm 1 0 false])))), (snd (fit blind 2 1 2 1 true (places [SWarm 1 0 false]) (Wrapper None [SWarm 1 0 false]))), v, o'.
  split; [exact HT|]. split; [exact HF|]. split; [reflexivity|]. split; [reflexivity|]. split; [reflexivity|]. split; [|split; [exact Er|exact Hk]].
  apply pair3. exact blind_fst.
Qed.
Print Assumptions C90_blind_refuted.

(* C91. In a fit with an OptConfig of length len at place q, whatever the other warm-ups: after i epochs the learning rate of an optimiser in rates is its rate divided by
   the median size of the gradients seen in the epochs of its window, if the window is over; before that, and of all other optimisers, it is what it was.
   gs: the gradients of all updates, by epoch; in the window all parameters of the optimisers in rates have one. *)
Theorem C91_rates :
  forall W I P (E : env W I P) (obs : W -> list slot) n bs n_mu mu_bs validate a cbs' a' tr q len cnt on rates,
  let l0 := obs (w_w a) in
  tame E (places l0) -> 0 < bs -> follows E (places l0) obs warm_cb -> nth_error l0 q = Some (SWarm len cnt on) ->
  fit E n bs n_mu mu_bs validate (places l0) a = (Ok cbs', a', tr) ->
  let c := Cfg (places l0) bs n_mu mu_bs in let s := start l0 q in
  exists xs, tr = doc_fit c xs /\
  forall gs o, Forall2 grads_of xs gs -> p_next o = concat gs -> NoDup (map fst rates) -> NoDup (map fst (p_lr o)) -> incl (map fst rates) (map fst (p_lr o)) ->
  (forall k g, In k (map fst rates) -> In g (concat (window s len (s + len) gs)) -> graded k g) -> forall i t, epochs_done c xs i t ->
  exists v o', warm_run q opt_feed (opt_own rates) t (fresh n bs l0, o) = Ok (v, o') /\ map fst (p_lr o') = map fst (p_lr o) /\
    (forall k r, In (k, r) rates -> 0 < len /\ s + len <= i ->
       exists m, maps_to (p_lr o') k (xdiv (Fin r) m) /\ median_of m (sizes k (concat (window s len i gs)))) /\
    (forall k x, ~ In k (map fst rates) \/ ~ (0 < len /\ s + len <= i) -> maps_to (p_lr o) k x -> maps_to (p_lr o') k x).
Proof.
  intros W I P E obs n bs n_mu mu_bs validate a cbs' a' tr q len cnt on rates l0 HT Hb HF Hq H c s.
  destruct (fit_replay E obs warm_cb _ _ _ _ _ _ _ _ _ _ HT Hb HF H) as (xs & Ht & _). fold c in Ht. exists xs. split; [exact Ht|].
  intros gs o HG Hn Nr Nl Hi Hall i t Hd.
  destruct (run_fit l0 c (Some n) (Some bs) q len cnt on eq_refl Hq (@opt_feed I P) (opt_own rates)) with (xs := xs) (Q := opt_inv l0 q len rates gs (p_lr o)) (o := o)
    (o0 := Optc (tab rates (fun _ => [])) (p_lr o) (p_grads o) (p_next o)) (i := i) (t := t) as (v & o' & R & (_ & (K & C1 & C2) & _)); auto.
  - intros e s1 s2 b o1 [-> |[-> | ->]]; reflexivity.
  - intros s1 s2 o1. cbn. now rewrite andb_false_r.
  - intros j x o1. apply (opt_epoch l0 c q len cnt on rates eq_refl Hq Nr xs gs (p_lr o) HG Hall Hi).
  - split; [cbn [p_stats]; apply tab_ext; intros k _; unfold window; now rewrite Nat.min_0_r|]. split; [|cbn [p_next]; exact Hn]. cbn [p_lr]. split; [reflexivity|]. split; [lia|auto].
  - assert (back : forall k x, lookup k (p_lr o') = Some x -> maps_to (p_lr o') k x).
    { intros k x Hx. split; [|now rewrite K]. clear - Hx. induction (p_lr o') as [|[k' y] d IH]; [discriminate|]. cbn [lookup] in Hx. destruct (String.eqb_spec k k') as [->|]; [injection Hx as ->; now left|right; auto]. }
    exists v, o'. split; [exact R|]. split; [exact K|]. split.
    + intros k r Hk X. eexists. split; [apply back, C1; auto|apply median_spec].
    + intros k x X Hx. apply back. rewrite (C2 k X). now apply lookup_in.
Qed.
Print Assumptions C91_rates.

(* C91. With such a learning rate, a step of plain gradient descent with the median gradient has the desired size; so at least half of the gradients lead to steps of at most
   that size, and at least half to steps of at least that size. *)
Lemma filter_all {A} (p : A -> bool) l : Forall (fun x => p x = true) l -> filter p l = l.
Proof. induction 1 as [|x l H F IH]; [reflexivity|]. cbn [filter]. rewrite H. now f_equal. Qed.
Lemma sorted_app {A} (R : A -> A -> Prop) a b : StronglySorted R (a ++ b) -> Forall (fun x => Forall (R x) b) a /\ StronglySorted R b.
Proof.
  induction a as [|x a IH]; cbn [app]; intro H; [now split|]. inversion H as [|? ? H1 H2]; subst. destruct (IH H1) as [A1 A2]. split; [|exact A2]. constructor; [|exact A1]. now apply Forall_app in H2.
Qed.
Lemma half_split p a b c0 : length a = length c0 -> (forall x, In x (a ++ b) -> p x = true) -> length b = 1 \/ length b = 2 -> at_least_half p (a ++ b ++ c0).
Proof. intros L H Hb. unfold at_least_half. rewrite !app_length. rewrite app_assoc, filter_app, app_length, (filter_all p (a ++ b)) by now apply Forall_forall. rewrite app_length. lia. Qed.
Lemma half_split' p a b c0 : length a = length c0 -> (forall x, In x (b ++ c0) -> p x = true) -> length b = 1 \/ length b = 2 -> at_least_half p (a ++ b ++ c0).
Proof. intros L H Hb. unfold at_least_half. rewrite !app_length. rewrite filter_app, app_length, (filter_all p (b ++ c0)) by now apply Forall_forall. rewrite app_length. lia. Qed.
Lemma half_one p a x c0 : length a = length c0 -> (forall y, In y (a ++ [x]) -> p y = true) -> at_least_half p (a ++ x :: c0).
Proof. intros. apply (half_split p a [x]); auto. Qed.
Lemma half_perm p l s : Permutation l s -> at_least_half p s -> at_least_half p l.
Proof.
  intros H. unfold at_least_half. rewrite (Permutation_length H). enough (length (filter p l) = length (filter p s)) as -> by auto. clear - H. induction H; cbn [filter]; auto; [destruct (p x)| |congruence]; cbn; auto.
  destruct (p x), (p y); cbn; auto.
Qed.
Lemma median_halves m l : no_nan l -> is_median (Fin m) l -> at_least_half (fun x => xle x (Fin m)) l /\ at_least_half (fun x => xle (Fin m) x) l.
Proof.
  intros N (s & Hp & Hs & Hm).
  assert (Ns : forall x, In x s -> x <> NaN) by (intros x Hx ->; apply N; eapply Permutation_in; [apply Permutation_sym; exact Hp|exact Hx]).
  assert (refl : forall x, x <> NaN -> xle x x = true) by (intros [r| | |] H; cbn; try congruence; apply Rleb_true; lra).
  enough (at_least_half (fun x => xle x (Fin m)) s /\ at_least_half (fun x => xle (Fin m) x) s) as [A B] by (split; eapply half_perm; eauto).
  destruct Hm as [(a & b & -> & L)|(a & x & y & b & -> & L & E)].
  - destruct (sorted_app _ _ _ Hs) as [A1 A2]. inversion A2 as [|? ? A3 A4]; subst. rewrite Forall_forall in A1, A4. split.
    + apply (half_split _ a [Fin m] b L); [|now left]. intros z Hz. apply in_app_or in Hz as [Hz|[<-|[]]]; [|apply refl; discriminate]. specialize (A1 z Hz). now inversion A1.
    + apply (half_split' _ a [Fin m] b L); [|now left]. intros z [<-|Hz]; [apply refl; discriminate|now apply A4].
  - assert (exists x' y', x = Fin x' /\ y = Fin y' /\ m = ((x' + y') / 2)%R) as (x' & y' & -> & -> & Em).
    { destruct x, y; cbn [xadd] in E; try (unfold xdiv in E; try destruct (Rlt_dec 2 0); discriminate). exists r, r0. rewrite xdiv_fin in E by lra. injection E as ->. auto. }
    destruct (sorted_app _ _ _ Hs) as [A1 A2]. inversion A2 as [|? ? A3 A4]; subst. inversion A3 as [|? ? A5 A6]; subst. rewrite Forall_forall in A1, A4, A6.
    assert (x' <= y')%R as Hxy by (apply Rleb_true; exact (A4 (Fin y') (or_introl eq_refl))).
    assert (L1 : xle (Fin x') (Fin ((x' + y') / 2)) = true) by (apply Rleb_true; lra). assert (L2 : xle (Fin ((x' + y') / 2)) (Fin y') = true) by (apply Rleb_true; lra). split.
    + replace (a ++ Fin x' :: Fin y' :: b) with ((a ++ [Fin x']) ++ [] ++ (Fin y' :: b)) by now rewrite <- app_assoc. unfold at_least_half. rewrite filter_app, app_length.
      rewrite (filter_all _ (a ++ [Fin x'])); [rewrite !app_length; cbn [length]; lia|]. apply Forall_forall. intros z Hz. apply in_app_or in Hz as [Hz|[<-|[]]]; [|exact L1].
      specialize (A1 z Hz). inversion A1; subst. eapply xle_trans; eauto.
    + replace (a ++ Fin x' :: Fin y' :: b) with ((a ++ [Fin x']) ++ [] ++ (Fin y' :: b)) by now rewrite <- app_assoc. unfold at_least_half. rewrite filter_app, app_length. cbn [app].
      rewrite (filter_all _ (Fin y' :: b)); [rewrite !app_length; cbn [length]; lia|]. apply Forall_forall. intros z [<-|Hz]; [exact L2|]. eapply xle_trans; [exact L2|]. now apply A6.
Qed.
Theorem C91_steps :
  forall r m l lr, median_of (Fin m) l -> l <> [] -> (forall x, In x l -> exists y, x = Fin y) -> (0 < m)%R -> (0 < r)%R -> xdiv (Fin r) (Fin m) = lr ->
  exists k, lr = Fin k /\ (0 < k)%R /\ (k * m = r)%R /\
    at_least_half (fun g => xle (xmul lr g) (Fin r)) l /\ at_least_half (fun g => xle (Fin r) (xmul lr g)) l.
Proof.
  intros r m l lr [H _] Hl Hf Hm Hr <-. rewrite xdiv_fin by lra. exists (r / m)%R. split; [reflexivity|]. assert (K : (0 < r / m)%R) by (apply Rdiv_lt_0_compat; lra). split; [exact K|]. split; [field; lra|].
  assert (N : no_nan l) by (intro X; destruct (Hf _ X); discriminate). destruct (median_halves m l N (H Hl N)) as [A B].
  assert (Ek : (r = r / m * m)%R) by (field; lra).
  assert (ext : forall p p' : xr -> bool, (forall x, In x l -> p x = p' x) -> at_least_half p l -> at_least_half p' l).
  { intros p p' X. unfold at_least_half. now rewrite (filter_ext_in p p' l X). }
  split; [refine (ext _ _ _ A)|refine (ext _ _ _ B)]; intros x Hx; destruct (Hf x Hx) as [y ->]; cbn [xmul xle].
  - destruct (Rleb_spec y m), (Rleb_spec (r / m * y) r); auto; exfalso; [assert (r / m * y <= r / m * m)%R by (apply Rmult_le_compat_l; lra)|assert (r / m * m < r / m * y)%R by (apply Rmult_lt_compat_l; lra)]; lra.
  - destruct (Rleb_spec m y), (Rleb_spec r (r / m * y)); auto; exfalso; [assert (r / m * m <= r / m * y)%R by (apply Rmult_le_compat_l; lra)|assert (r / m * y < r / m * m)%R by (apply Rmult_lt_compat_l; lra)]; lra.
Qed.
Print Assumptions C91_steps.

(* one warm-up of two epochs; three epochs of two volumes, one volume for each update.  The optimiser xy has two parameters, z is not in rates *)
Definition C91_slots : list slot := [SWarm 2 0 false].
Definition C91_rates0 : list (string * R) := [("xy", 6%R)]%string.
Definition C91_grad (x y : R) : list (string * list (option (list xr))) := [("z", [None]); ("xy", [Some [Fin x]; Some [NaN; Fin y]])]%string.
Definition C91_grads := [[C91_grad (-1) 2; C91_grad 3 4]; [C91_grad 2 (-5); C91_grad 8 1]; [C91_grad 9 9; C91_grad 9 9]]%R.
Definition C91_opt : optc := Optc [("old", [NaN])]%string [("xy", Fin 5); ("z", Fin 7)]%R%string [] (concat C91_grads).
Example C91_case_hyps :
  tame (stage warm_cb 2 1) (places C91_slots) /\ follows (stage warm_cb 2 1) (places C91_slots) (fun s => s) warm_cb /\
  NoDup (map fst C91_rates0) /\ NoDup (map fst (p_lr C91_opt)) /\ incl (map fst C91_rates0) (map fst (p_lr C91_opt)) /\
  forall k g, In k (map fst C91_rates0) -> In g (concat (window 0 2 2 C91_grads)) -> graded k g.
Proof.
  split; [apply warm_stage_tame|]. split; [apply stage_follows|]. split; [repeat constructor; cbn; intuition congruence|]. split; [repeat constructor; cbn; intuition congruence|].
  split; [intros k [<- |[]]; now left|]. intros k g [<- |[]] Hg. cbn in Hg.
  assert (exists x y, g = C91_grad x y) as (x & y & ->) by (destruct Hg as [<- |[<- |[<- |[<- |[]]]]]; do 2 eexists; reflexivity).
  exists [Some [Fin x]; Some [NaN; Fin y]]. split; [split; [right; now left|repeat constructor; cbn; intuition congruence]|]. intros [H|[H|[]]]; discriminate.
Qed.
Definition C91_fit := fit (stage warm_cb 2 1) 3 1 2 1 true (places C91_slots) (Wrapper None C91_slots).
Example C91_case : fst (fst C91_fit) = Ok (places C91_slots) /\
  rmap (fun vo => p_lr (snd vo)) (warm_run 0 opt_feed (opt_own C91_rates0) (snd C91_fit) (fresh 3 1 C91_slots, C91_opt))
  = Ok [("xy", xdiv (Fin 6) (np_median (map (fun x => Fin (Rabs x)) [-1; 2; 3; 4; 2; -5; 8; 1]))); ("z", Fin 7)]%R%string.
Proof. split; [vm_compute; reflexivity|]. lazy -[np_median xdiv IZR INR Rplus Rmult Rdiv Rabs]. reflexivity. Qed.

(* C91 is false for parameters on which nothing depends (gradients of size zero): the learning rate becomes infinite *)
Lemma zero_median n : np_median (repeat (Fin 0) (S n)) = Fin 0.
Proof.
  destruct (median_spec (repeat (Fin 0) (S n))) as [H _]. assert (Z : forall x, In x (repeat (Fin 0) (S n)) -> x = Fin 0) by apply repeat_spec.
  destruct (H ltac:(discriminate) ltac:(intro X; apply Z in X; discriminate)) as (s & Hp & _ & Hm).
  assert (Zs : forall x, In x s -> x = Fin 0) by (intros x Hx; apply Z; eapply Permutation_in; [apply Permutation_sym; exact Hp|exact Hx]).
  destruct Hm as [(a & b & -> & L)|(a & x & y & b & -> & L & E)]; [apply Zs, in_elt|].
  rewrite E, (Zs x), (Zs y) by (apply in_or_app; right; cbn; auto). cbn [xadd]. rewrite xdiv_fin by lra. f_equal. lra.
Qed.
Theorem C91_zero_refuted :
  exists m l r, median_of m l /\ l <> [] /\ (0 < r)%R /\ (forall x, In x l -> exists y, x = Fin y) /\ xdiv (Fin r) m = PInf.
Proof.
  exists (Fin 0), [Fin 0; Fin 0], 1%R. split; [rewrite <- (zero_median 1) at 1; apply median_spec|]. split; [discriminate|]. split; [lra|]. split; [intros x [<- |[<- |[]]]; eauto|].
  unfold xdiv, inf_of_sign. repeat (match goal with |- context [if ?d then _ else _] => destruct d end; try lra); reflexivity.
Qed.
(* C91 is false when the loss of an update does not depend on some parameter (such as in a batch without any prediction): the fit raises in the warm-up *)
Theorem C91_missing_refuted :
  exists rates (t : list (item nat nat)) o, map fst rates = map fst (p_lr o) /\ (forall g, In g (p_next o) -> map fst g = map fst rates) /\
  t = snd (fit (stage warm_cb 1 0) 1 1 1 1 true (places [SWarm 1 0 false]) (Wrapper None [SWarm 1 0 false])) /\
  warm_run 0 opt_feed (opt_own rates) t (fresh 1 1 [SWarm 1 0 false], o) = Err AttributeError.
Proof.
  exists C91_rates0, (snd (fit (stage warm_cb 1 0) 1 1 1 1 true (places [SWarm 1 0 false]) (Wrapper None [SWarm 1 0 false]))), (Optc [] [("xy", Fin 5)]%string [] [[("xy", [None])]]%string).
  split; [reflexivity|]. split; [intros g [<- |[]]; reflexivity|]. split; [reflexivity|]. lazy -[IZR INR Rplus Rmult Rdiv]. reflexivity.
Qed.
(* ... nor when a rate is given for a name that no optimiser of the wrapper has: nothing is checked at the start, and the first update raises *)
Theorem C91_unknown_refuted :
  exists rates (t : list (item nat nat)) o, (forall k, In k (map fst rates) -> ~ In k (map fst (p_lr o))) /\ (forall g, In g (p_next o) -> map fst g = map fst (p_lr o)) /\
  t = snd (fit (stage warm_cb 1 0) 1 1 1 1 true (places [SWarm 1 0 false]) (Wrapper None [SWarm 1 0 false])) /\
  warm_run 0 opt_feed (opt_own rates) t (fresh 1 1 [SWarm 1 0 false], o) = Err KeyError.
Proof.
  exists C91_rates0, (snd (fit (stage warm_cb 1 0) 1 1 1 1 true (places [SWarm 1 0 false]) (Wrapper None [SWarm 1 0 false]))), (Optc [] [("z", Fin 5)]%string [] [[("z", [Some [Fin 1]])]]%string).
  split; [intros k [<- |[]] [X|[]]; discriminate X|]. split; [intros g [<- |[]]; reflexivity|]. split; [reflexivity|]. lazy -[IZR INR Rplus Rmult Rdiv]. reflexivity.
Qed.
