(* Proofs for C90. *)
From Coq Require Import Reals Lra Lia List Bool String.
From Verif Require Import Base.RUtil Model.Fit Model.Warmup Model.WarmOwn Spec.FitSpec Spec.ReplaySpec Spec.WarmupSpec Spec.WarmOwnSpec Proofs.FitP Proofs.WarmupP Proofs.WarmOwnP Base.XR.
Import ListNotations.
Open Scope list_scope.
Open Scope nat_scope.

Lemma losses_app {I P} (a b : list (vol I P)) : losses (a ++ b) = losses a ++ losses b.
Proof. unfold losses. now rewrite flat_map_app. Qed.
Lemma losses_cons {I P} (v : vol I P) b : losses (v :: b) = losses [v] ++ losses b.
Proof. apply (losses_app [v]). Qed.
Lemma split_len {A} n m (l : list A) : length l = n + m -> exists a b, l = a ++ b /\ length a = n /\ length b = m.
Proof. intro H. exists (firstn n l), (skipn n l). rewrite firstn_skipn, firstn_length, skipn_length. repeat split; lia. Qed.
Lemma or_first_app k a b : or_first (or_first k a) b = or_first k (a ++ b).
Proof. destruct k as [x|]; [reflexivity|]. now destruct a. Qed.

Section Cost.
Context {I P : Type}.
Variables (l0 : list slot) (c : cfg) (q len cnt0 : nat) (on0 : bool).
Hypothesis Hc : c_cbs c = places l0.
Hypothesis Hq : nth_error l0 q = Some (SWarm len cnt0 on0).
Notation items := (list (item I P)).
Notation srun := (@scan_run I P cost q (@cost_feed I P) cost_own).
Notation son := (@scan_on I P cost l0 c q len cnt0 on0 Hc Hq (@cost_feed I P) cost_own).

Definition calm_event (e : event) : bool := match e with TrainBegin | VolumeEnd | EpochEnd => false | _ => true end.
Definition calm_item (i : item I P) : Prop :=
  match i with Call _ e => calm_event e = true | NewInferrer | Predicted _ | Loss _ => False | _ => True end.
Lemma calm_run s t (l : items) o : Forall calm_item l -> srun s t l o = Ok o.
Proof.
  induction 1 as [|i l Hi F IH]; [reflexivity|]. rewrite scan_cons. destruct i; try contradiction; cbn [scan_step cost_feed bind]; auto.
  destruct (Nat.eqb cb q); cbn [bind]; auto. destruct e; try discriminate; exact IH.
Qed.
Lemma calm_on e : calm_event e = true -> Forall calm_item (on c e : items).
Proof. intro H. apply Forall_forall. intros x Hx. apply in_map_iff in Hx as [k [<- _]]. exact H. Qed.
Ltac calm := repeat first [ apply Forall_app; split | apply calm_on; reflexivity | constructor; [exact Logic.I|] | constructor
  | match goal with |- Forall _ (if ?x then _ else _) => destruct x | |- Forall _ (match ?x with _ => _ end) => destruct x end ].
Lemma calm_mus n : Forall calm_item (concat (repeat (doc_mu c : items) n)).
Proof. induction n as [|n IH]; [constructor|]. cbn [repeat concat]. apply Forall_app. split; [|exact IH]. unfold doc_mu. calm. Qed.

(* what a part of a scan does, given the errors d of its volumes *)
Definition does (s : slot) (t : bool) (l : items) (d : list xr) : Prop := forall o rest, k_next o = d ++ rest ->
  exists o', srun s t l o = Ok o' /\ k_errors o' = k_errors o ++ (if is_active s && t then d else []) /\ k_coef o' = or_first (k_coef o) d /\ k_next o' = rest.
Lemma does_calm s t l : Forall calm_item l -> does s t l [].
Proof. intros F o rest H. exists o. rewrite calm_run by exact F. destruct (is_active s && t); rewrite app_nil_r; repeat split; auto; now destruct (k_coef o). Qed.
Lemma does_app s t l m d e : does s t l d -> does s t m e -> does s t (l ++ m) (d ++ e).
Proof.
  intros A B o rest H. rewrite <- app_assoc in H. destruct (A o _ H) as (o1 & R1 & E1 & C1 & N1). destruct (B o1 _ N1) as (o2 & R2 & E2 & C2 & N2).
  exists o2. rewrite scan_app, R1. cbn [bind]. split; [exact R2|]. rewrite E2, E1, C2, C1, or_first_app. split; [|auto]. rewrite <- app_assoc. f_equal. now destruct (is_active s && t).
Qed.
Lemma does_vol s t (v : vol I P) d : loss_iff true v -> length d = length (losses [v]) -> does s t (doc_vol c v) d.
Proof.
  intros L Hd. unfold doc_vol. rewrite !app_assoc. intros o rest Hn.
  rewrite <- !app_assoc. rewrite scan_app, calm_run by calm. cbn [bind]. rewrite scan_app, calm_run by calm. cbn [bind app].
  rewrite scan_cons. cbn [scan_step cost_feed bind]. rewrite scan_app, calm_run by apply calm_mus. cbn [bind]. rewrite scan_app, calm_run by calm. cbn [bind].
  rewrite scan_cons. cbn [scan_step cost_feed bind k_errors k_coef k_error k_next]. rewrite scan_app, calm_run by calm. cbn [bind].
  unfold losses in Hd. cbn [flat_map] in Hd. rewrite app_nil_r in Hd. unfold loss_iff in L. destruct (v_loss v) as [l|].
  - destruct d as [|e [|]]; try discriminate. destruct (v_pred v) as [p|]; [|exfalso; apply (proj1 L); [discriminate|reflexivity]].
    cbn [app] in Hn |- *. rewrite scan_cons. cbn [scan_step cost_feed bind k_next]. rewrite Hn. cbn [k_errors k_coef k_error k_pred k_next]. rewrite son. cbn [cost_own k_pred k_error].
    rewrite andb_true_r. destruct (is_active s && t); eexists; (split; [reflexivity|]); cbn [k_errors k_coef k_next]; rewrite ?app_nil_r; repeat split; now destruct (k_coef o).
  - destruct d; [|discriminate]. destruct (v_pred v) as [p|]; [exfalso; apply (proj2 L); [split; [reflexivity|discriminate]|reflexivity]|].
    cbn [app] in Hn |- *. rewrite son. cbn [cost_own k_pred]. rewrite andb_false_r. eexists; (split; [reflexivity|]). cbn [k_errors k_coef k_next]. destruct (is_active s && t); rewrite app_nil_r; repeat split; auto; now destruct (k_coef o).
Qed.
Lemma does_vols s t (vs : list (vol I P)) : Forall (loss_iff true) vs -> forall d, length d = length (losses vs) -> does s t (flat_map (doc_vol c) vs) d.
Proof.
  induction 1 as [|v vs L F IH]; intros d Hd.
  - destruct d; [|discriminate]. apply does_calm. constructor.
  - rewrite losses_cons, app_length in Hd. destruct (split_len _ _ _ Hd) as (a & b & -> & Ha & Hb). cbn [flat_map]. apply does_app; [now apply does_vol|now apply IH].
Qed.
Lemma does_batch s t train skip (vs : list (vol I P)) d : Forall (loss_iff true) vs -> length d = length (losses vs) -> does s t (doc_batch c train skip vs) d.
Proof.
  intros F Hd. unfold doc_batch. change d with ([] ++ d). apply does_app; [apply does_calm; calm|]. rewrite <- (app_nil_r d).
  apply does_app; [now apply does_vols|]. apply does_calm. unfold doc_end, doc_update. calm.
Qed.
Lemma does_batches s t train skip bss : forall d, Forall (loss_iff true) (concat bss) -> length d = length (losses (concat bss)) -> does s t (flat_map (doc_batch c train skip) bss) d.
Proof.
  induction bss as [|vs bss IH]; intros d F Hd.
  - destruct d; [|discriminate]. apply does_calm. constructor.
  - cbn [concat] in *. apply Forall_app in F as [F1 F2]. rewrite losses_app, app_length in Hd. destruct (split_len _ _ _ Hd) as (a & b & -> & Ha & Hb).
    cbn [flat_map]. apply does_app; [now apply does_batch|now apply IH].
Qed.
Lemma does_scan s t train skip (sc : scan I P) d : Forall (loss_iff true) (scan_vols sc) -> length d = length (losses (scan_vols sc)) -> does s t (doc_scan c train skip sc) d.
Proof.
  unfold scan_vols, doc_scan. intros F Hd. apply Forall_app in F as [F1 F2]. rewrite losses_app, app_length in Hd. destruct (split_len _ _ _ Hd) as (a & b & -> & Ha & Hb).
  apply does_app; [now apply does_batches|]. destruct (sc_rest sc) as [|v vs]; [destruct b; [|discriminate]; apply does_calm; constructor|].
  change b with ([] ++ b). apply does_app; [apply does_calm; calm|now apply does_vols].
Qed.

Variable xs : list (epoch I P).
Variable ds : list (list xr * list xr).
Variable k0 : option xr.
Hypothesis HL : Forall (fun x => Forall (loss_iff true) (epoch_vols x)) xs.
Hypothesis HD : Forall2 errors_of xs ds.
Notation st := (start l0 q).
(* after i epochs *)
Definition coef_after (i : nat) (k : option xr) : Prop :=
  (0 < len /\ st + len <= i -> k = Some (np_median (train_errors (window st len i ds)))) /\
  (~ (0 < len /\ st + len <= i) -> k = or_first k0 (all_errors (firstn i ds))).
Definition cost_inv (i : nat) (o : cost) : Prop :=
  k_errors o = train_errors (window st len i ds) /\ coef_after i (k_coef o) /\ k_next o = all_errors (skipn i ds).
Lemma skip_head {A} (l : list A) i x : nth_error l i = Some x -> skipn i l = x :: skipn (S i) l.
Proof. revert i. induction l as [|y l IH]; intros [|i]; try discriminate; cbn; [now intros [= ->]|]. apply IH. Qed.
Lemma nth_skip {A} (l : list A) i j : nth_error (skipn i l) j = nth_error l (i + j).
Proof. revert i. induction l as [|y l IH]; intros [|i]; cbn; auto. now destruct j. Qed.
Lemma window_in {A} (l : list A) s n i x : nth_error l i = Some x -> s <= i < s + n -> window s n (S i) l = window s n i l ++ [x].
Proof.
  intros H Hi. unfold window. replace (Nat.min n (S i - s)) with (S (i - s)) by lia. replace (Nat.min n (i - s)) with (i - s) by lia.
  apply firstn_snoc. rewrite nth_skip. now replace (s + (i - s)) with i by lia.
Qed.
Lemma window_out {A} (l : list A) s n i : ~ (s <= i < s + n) -> window s n (S i) l = window s n i l.
Proof. intro H. unfold window. f_equal. lia. Qed.
Lemma window_over {A} (l : list A) s n i : s + n <= i -> window s n i l = window s n (s + n) l.
Proof. intro H. unfold window. f_equal. lia. Qed.

Lemma cost_epoch i x o : nth_error xs i = Some x -> cost_inv i o ->
  exists o1 o2, srun (slot_at l0 q len i) true (doc_scan c true (ep_skip x) (ep_train x)) o = Ok o1 /\ cost_own EpochEnd (slot_at l0 q len i) (slot_end l0 q len i) true o1 = Ok o2 /\
    match ep_valid x with
    | Some s => forall sl, exists o3, srun sl false (doc_scan c false (ep_skip x) s) o2 = Ok o3 /\ cost_inv (S i) o3
    | None => cost_inv (S i) o2 end.
Proof.
  intros Hx (E & C & N).
  assert (exists d, nth_error ds i = Some d /\ errors_of x d) as (d & Hd & [D1 D2]).
  { clear - HD Hx. revert i Hx. induction HD as [|y d ys ds' H F IH]; intros [|i] Hx; try discriminate; [injection Hx as ->; exists d; now split|]. now apply IH. }
  assert (Forall (loss_iff true) (epoch_vols x)) as FL by (rewrite Forall_forall in HL; apply HL; eapply nth_error_In; eauto).
  unfold epoch_vols in FL. apply Forall_app in FL as [FT FV].
  rewrite (skip_head _ _ _ Hd) in N. cbn [all_errors flat_map] in N. rewrite <- app_assoc in N.
  destruct (does_scan (slot_at l0 q len i) true true (ep_skip x) (ep_train x) (fst d) FT D1 o _ N) as (o1 & R1 & E1 & C1 & N1).
  exists o1. cbn [slot_at is_active] in E1. rewrite andb_true_r in E1.
  assert (E1' : k_errors o1 = train_errors (window st len (S i) ds)).
  { rewrite E1, E. unfold act. destruct (Nat.leb_spec st i), (Nat.ltb_spec i (st + len)); cbn [andb].
    - rewrite (window_in _ _ _ _ _ Hd) by lia. unfold train_errors. rewrite flat_map_app. cbn. now rewrite app_nil_r.
    - rewrite window_out by lia. apply app_nil_r.
    - rewrite window_out by lia. apply app_nil_r.
    - rewrite window_out by lia. apply app_nil_r. }
  (* the coefficient after the training part *)
  assert (exists o2, cost_own EpochEnd (slot_at l0 q len i) (slot_end l0 q len i) true o1 = Ok o2 /\ k_errors o2 = k_errors o1 /\ k_next o2 = k_next o1 /\
    (0 < len /\ st + len <= S i -> k_coef o2 = Some (np_median (train_errors (window st len (S i) ds)))) /\
    (~ (0 < len /\ st + len <= S i) -> k_coef o2 = or_first k0 (all_errors (firstn i ds) ++ fst d))) as (o2 & R2 & E2 & N2 & A2 & B2).
  { unfold slot_end, slot_at. cbn [cost_own is_active is_over]. unfold act. destruct C as [Ca Cb].
    destruct (Nat.leb_spec st i), (Nat.ltb_spec i (st + len)); cbn [andb]; [|exists o1|exists o1|exists o1].
    - replace (Nat.min len (i - st)) with (i - st) by lia. destruct (Nat.leb_spec len (S (i - st))); cbn [andb].
      + eexists. split; [reflexivity|]. cbn [k_errors k_coef k_next]. split; [reflexivity|]. split; [reflexivity|]. split; [intros _; now rewrite E1'|]. intro X. exfalso. apply X. lia.
      + exists o1. split; [reflexivity|]. do 2 (split; [reflexivity|]). split; [intro X; lia|]. intros _. rewrite C1, Cb, or_first_app by lia. reflexivity.
    - split; [reflexivity|]. do 2 (split; [reflexivity|]). split.
      + intro X. rewrite C1, Ca by lia. cbn [or_first]. do 3 f_equal. now rewrite window_out by lia.
      + intros X. rewrite C1, Cb, or_first_app by lia. reflexivity.
    - split; [reflexivity|]. do 2 (split; [reflexivity|]). split; [intro X; lia|]. intros _. rewrite C1, Cb, or_first_app by lia. reflexivity.
    - split; [reflexivity|]. do 2 (split; [reflexivity|]). split; [intro X; lia|]. intros _. rewrite C1, Cb, or_first_app by lia. reflexivity. }
  exists o2. split; [exact R1|]. split; [exact R2|].
  assert (FI : all_errors (firstn (S i) ds) = (all_errors (firstn i ds) ++ fst d) ++ snd d).
  { rewrite (firstn_snoc _ _ _ Hd). unfold all_errors. rewrite flat_map_app. cbn [flat_map]. now rewrite app_nil_r, app_assoc. }
  rewrite <- N2 in N1. unfold cost_inv, coef_after. rewrite FI. destruct (ep_valid x) as [s|].
  - intro sl. destruct (does_scan sl false false (ep_skip x) s (snd d) FV D2 o2 _ N1) as (o3 & R3 & E3 & C3 & N3). exists o3. split; [exact R3|].
    rewrite andb_false_r, app_nil_r in E3. rewrite E3, E2, E1', C3, N3. split; [reflexivity|]. split; [|reflexivity]. split.
    + intro X. rewrite A2 by exact X. reflexivity.
    + intro X. rewrite B2 by exact X. apply or_first_app.
  - destruct (snd d); [|discriminate]. rewrite app_nil_r. cbn [app] in N1. rewrite E2. auto.
Qed.
End Cost.
