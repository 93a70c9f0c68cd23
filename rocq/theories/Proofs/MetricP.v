(* Proofs about the main metric and the reported epoch. *)
Require Import Reals Lra Lia.
From Verif Require Import Model.Metric Spec.MetricSpec.
Open Scope list_scope.

Lemma mem_spec i l : mem i l = true <-> In i l.
Proof. unfold mem. rewrite existsb_exists. split; [intros (x & I & E); apply Nat.eqb_eq in E; now subst|intros I; exists i; split; [exact I|apply Nat.eqb_refl]]. Qed.
Lemma ids_in i cbs : In i (metric_ids cbs) <-> In (SMetric i) cbs.
Proof.
  induction cbs as [|[j| |] l IH]; cbn; [tauto| | |]; rewrite IH.
  - split; (intros [E|E]; [left|now right]); [now subst|now injection E].
  - split; [now right|]. intros [E|E]; [discriminate|exact E].
  - split; [now right|]. intros [E|E]; [discriminate|exact E].
Qed.
Lemma ids_app c1 c2 : metric_ids (c1 ++ c2) = metric_ids c1 ++ metric_ids c2.
Proof. induction c1 as [|[j| |] l IH]; cbn; [reflexivity| | |]; now rewrite IH. Qed.

(* the first main one, by position *)
Lemma first_none fl k ms : (forall j, In j ms -> fl j = false) -> first_main fl k ms = None.
Proof. revert k. induction ms as [|i ms IH]; intros k H; cbn; [reflexivity|]. rewrite (H i (or_introl eq_refl)). apply IH. intros j I. apply H. now right. Qed.
Lemma first_some fl k m1 i m2 : fl i = true -> (forall j, In j m1 -> fl j = false) -> first_main fl k (m1 ++ i :: m2) = Some (k + length m1)%nat.
Proof.
  revert k. induction m1 as [|a m1 IH]; intros k Hi H; cbn; [rewrite Hi; f_equal; lia|]. rewrite (H a (or_introl eq_refl)), IH; [f_equal; lia|exact Hi|]. intros j I. apply H. now right.
Qed.

(* the flags once the leader's turn has come *)
Definition lead_flags (ms : list nat) (i : nat) (fl : flags) : flags := fun j => if Nat.eqb j i then true else if mem j ms then false else fl j.
Lemma choose_leader ms fl m1 i m2 : ms = m1 ++ i :: m2 -> fl i = true -> (forall j, In j m1 -> fl j = false) -> choose ms fl = (Some (length m1), true).
Proof. intros -> Hi H. unfold choose. rewrite (first_some _ 0 _ _ _ Hi H). destruct (m1 ++ i :: m2) eqn:E; [destruct m1; discriminate|]. reflexivity. Qed.
Lemma choose_none ms fl : (forall j, In j ms -> fl j = false) -> choose ms fl = (match ms with [] => None | _ => Some 0%nat end, false).
Proof. intros H. unfold choose. destruct ms; [reflexivity|]. now rewrite first_none. Qed.

Definition pick_of (l : list slot) (q old : option nat * bool) : option nat * bool := if existsb (fun c => match c with SLogger => true | _ => false end) l then q else old.
(* callbacks before the leader change nothing but the logger *)
Lemma walk_quiet ms (fl : flags) q l lk : (forall j, In (SMetric j) l -> fl j = false) -> choose ms fl = q ->
  fold_left (begin_slot ms) l (fl, lk) = (fl, pick_of l q lk).
Proof.
  intros H E. revert lk. induction l as [|c l IH]; intros lk; [reflexivity|]. cbn [fold_left]. assert (H' : forall j, In (SMetric j) l -> fl j = false) by (intros j I; apply H; now right).
  destruct c as [i| |]; cbn [begin_slot fst snd].
  - unfold metric_begin. rewrite (H i (or_introl eq_refl)). rewrite (IH H'). reflexivity.
  - rewrite E, (IH H'). unfold pick_of. cbn. destruct (existsb _ l); reflexivity.
  - rewrite (IH H'). reflexivity.
Qed.
Lemma lead_same ms i fl : In i ms -> forall j, lead_flags ms i fl j = lead_flags ms i (lead_flags ms i fl) j.
Proof. intros Hi j. unfold lead_flags. destruct (Nat.eqb j i); [reflexivity|]. destruct (mem j ms); reflexivity. Qed.
(* callbacks after it: only the leader is main *)
Lemma walk_led ms i q l (fl : flags) lk : In i ms -> (forall j, In (SMetric j) l -> In j ms /\ j <> i) -> fl i = true -> (forall j, In j ms -> j <> i -> fl j = false) -> choose ms fl = q ->
  fold_left (begin_slot ms) l (fl, lk) = (fl, pick_of l q lk).
Proof. intros Hi H Hf Hn E. apply walk_quiet; [|exact E]. intros j I. destruct (H j I). now apply Hn. Qed.

Lemma begin_leader cbs fl lk i : NoDup (metric_ids cbs) -> leader fl cbs i ->
  exists m1 m2, metric_ids cbs = m1 ++ i :: m2 /\ (forall j, In j m1 -> fl j = false)
  /\ train_begin cbs (fl, lk) = (lead_flags (metric_ids cbs) i fl, pick_of cbs (Some (length m1), true) lk).
Proof.
  intros ND (c1 & c2 & -> & Hi & H1). exists (metric_ids c1), (metric_ids c2). assert (Em : metric_ids (c1 ++ SMetric i :: c2) = metric_ids c1 ++ i :: metric_ids c2) by (rewrite ids_app; reflexivity).
  assert (H1' : forall j, In j (metric_ids c1) -> fl j = false) by (intros j I; apply H1, ids_in, I).
  split; [exact Em|]. split; [exact H1'|]. unfold train_begin. set (ms := metric_ids (c1 ++ SMetric i :: c2)) in *. rewrite fold_left_app. cbn [fold_left].
  assert (Ii : In i ms) by (rewrite Em; apply in_or_app; right; now left).
  rewrite (walk_quiet ms fl (Some (length (metric_ids c1)), true) c1 lk H1 (choose_leader _ _ _ _ _ Em Hi H1')).
  cbn [begin_slot fst snd]. unfold metric_begin. rewrite Hi. fold (lead_flags ms i fl).
  rewrite (walk_led ms i (Some (length (metric_ids c1)), true) c2).
  - f_equal. unfold pick_of. rewrite existsb_app. cbn [existsb]. destruct (existsb _ c1), (existsb _ c2); reflexivity.
  - exact Ii.
  - intros j I. apply ids_in in I. split; [rewrite Em; apply in_or_app; right; now right|]. intros ->. rewrite Em in ND. apply NoDup_remove_2 in ND. apply ND. apply in_or_app. now right.
  - unfold lead_flags. now rewrite Nat.eqb_refl.
  - intros j Hj Nj. unfold lead_flags. apply Nat.eqb_neq in Nj. rewrite Nj. apply mem_spec in Hj. now rewrite Hj.
  - apply (choose_leader _ _ _ i (metric_ids c2) Em); [unfold lead_flags; now rewrite Nat.eqb_refl|]. intros j I. unfold lead_flags.
    assert (Nj : j <> i) by (intros ->; rewrite Em in ND; apply NoDup_remove_2 in ND; apply ND; apply in_or_app; now left). apply Nat.eqb_neq in Nj. rewrite Nj.
    assert (Ij : In j ms) by (rewrite Em; apply in_or_app; now left). apply mem_spec in Ij. now rewrite Ij.
Qed.
Lemma begin_none cbs fl lk : no_leader fl cbs ->
  train_begin cbs (fl, lk) = (fl, pick_of cbs (match metric_ids cbs with [] => None | _ => Some 0%nat end, false) lk).
Proof. intros H. unfold train_begin. apply walk_quiet; [exact H|]. apply choose_none. intros j I. apply H, ids_in, I. Qed.
Lemma pick_logger cbs q lk : In SLogger cbs -> pick_of cbs q lk = q.
Proof. intros I. unfold pick_of. replace (existsb _ cbs) with true; [reflexivity|]. symmetry. apply existsb_exists. exists SLogger. auto. Qed.

(* the values that are logged *)
Definition cols (ms : list nat) (es : list (xr * (nat -> xr))) : list (list xr) := map (fun i => map (fun e : xr * (nat -> xr) => snd e i) es) ms.
Lemma append_cols ms es e : append_each (cols ms es) (map (snd e) ms) = cols ms (es ++ [e]).
Proof. unfold cols. induction ms as [|i ms IH]; cbn; [reflexivity|]. rewrite IH, map_app. reflexivity. Qed.
Lemma nth_cols ms es k i : nth_error ms k = Some i -> nth_error (cols ms es) k = Some (map (fun e : xr * (nat -> xr) => snd e i) es).
Proof. intros H. unfold cols. rewrite nth_error_map, H. reflexivity. Qed.
Lemma last_snoc {A} (l : list A) x : pick_last (l ++ [x]) = Ok x.
Proof. unfold pick_last. rewrite rev_app_distr. reflexivity. Qed.
Definition led (info : nat -> metric) (i : nat) (x : xr) : xr := if mt_lower (info i) then x else xopp x.
Definition result_of (info : nat -> metric) (lead : option nat) (es : list (xr * (nat -> xr))) : option (xr * option xr) :=
  match rev es with [] => None | e :: _ => Some (fst e, match lead with Some i => Some (led info i (snd e i)) | None => None end) end.
Lemma epochs_spec info ms pick lead es :
  match pick with (Some k, true) => exists i, lead = Some i /\ nth_error ms k = Some i | (None, true) => False | (_, false) => lead = None end ->
  foldM (metric_epoch info ms) es (Mlog [] (map (fun _ => []) ms) pick None) = Ok (Mlog (map fst es) (cols ms es) pick (result_of info lead es)).
Proof.
  intros HP. assert (G : forall es1 es0, foldM (metric_epoch info ms) es1 (Mlog (map fst es0) (cols ms es0) pick (result_of info lead es0)) = Ok (Mlog (map fst (es0 ++ es1)) (cols ms (es0 ++ es1)) pick (result_of info lead (es0 ++ es1)))).
  { induction es1 as [|e es1 IH]; intros es0; [rewrite app_nil_r; reflexivity|]. cbn [foldM]. unfold metric_epoch at 1. cbn [l_val l_mets l_pick].
    rewrite append_cols. replace (map fst es0 ++ [fst e]) with (map fst (es0 ++ [e])) by (rewrite map_app; reflexivity).
    assert (R : result_of info lead (es0 ++ [e]) = Some (fst e, match lead with Some i => Some (led info i (snd e i)) | None => None end)) by (unfold result_of; rewrite rev_app_distr; reflexivity).
    specialize (IH (es0 ++ [e])). rewrite <- app_assoc in IH. cbn [app] in IH. rewrite R in IH.
    destruct pick as [[k|] [|]]; cbn [bind] in *; try (subst lead; exact IH); [|destruct HP].
    destruct HP as (i & -> & Hk). unfold pick_at. rewrite (nth_cols ms (es0 ++ [e]) k i Hk). cbn [bind]. rewrite map_app. cbn [map]. rewrite last_snoc. cbn [bind]. rewrite Hk. cbn [bind]. exact IH. }
  specialize (G es []). cbn [app map] in G. exact G.
Qed.

(* ---------- the best place ---------- *)
Section Best.
Variables (lower : bool).
Definition bt (a b : xr) : bool := if lower then xlt a b else xlt b a.
Lemma bt_better a b : better lower a b <-> bt a b = true.
Proof. unfold better, bt. destruct lower; tauto. Qed.
Lemma xlt_irr a : xlt a a = false.
Proof. destruct a; cbn; try reflexivity. destruct (Rltb_spec r r); [lra|reflexivity]. Qed.
Lemma xlt_trans a b c : xlt a b = true -> xlt b c = true -> xlt a c = true.
Proof. destruct a, b, c; cbn; try reflexivity; try discriminate. destruct (Rltb_spec r r0), (Rltb_spec r0 r1), (Rltb_spec r r1); auto; lra. Qed.
Lemma xlt_total a b : a <> NaN -> b <> NaN -> xlt a b = true \/ a = b \/ xlt b a = true.
Proof. destruct a, b; cbn; try congruence; auto. intros _ _. destruct (Rltb_spec r r0), (Rltb_spec r0 r); auto. right. left. f_equal. lra. Qed.
Lemma xlt_nan a b : xlt a b = true -> a <> NaN /\ b <> NaN.
Proof. destruct a, b; cbn; intros; split; congruence. Qed.
Lemma bt_irr a : bt a a = false. Proof. unfold bt. destruct lower; apply xlt_irr. Qed.
Lemma bt_trans a b c : bt a b = true -> bt b c = true -> bt a c = true. Proof. unfold bt. destruct lower; eauto using xlt_trans. Qed.
Lemma bt_nan a b : bt a b = true -> a <> NaN /\ b <> NaN. Proof. unfold bt. destruct lower; intros H; apply xlt_nan in H; tauto. Qed.
(* if a is better than b, c is better than b or a better than c *)
Lemma bt_cotrans a b c : c <> NaN -> bt a b = true -> bt a c = true \/ bt c b = true.
Proof.
  intros Hc H. destruct (bt_nan _ _ H) as [Ha Hb]. unfold bt in *. destruct lower.
  - destruct (xlt_total a c Ha Hc) as [E|[->|E]]; auto. right. eapply xlt_trans; eauto.
  - destruct (xlt_total c a Hc Ha) as [E|[->|E]]; auto. right. eapply xlt_trans; eauto.
Qed.
Lemma argbest_spec (f : list xr) : (forall x, In x f -> x <> NaN) -> forall l k best b,
  nth_error f best = Some b -> (best < k)%nat -> skipn k f = l ->
  (forall e v, (e < k)%nat -> nth_error f e = Some v -> bt v b = false) ->
  (forall e v, (e < best)%nat -> nth_error f e = Some v -> bt b v = true) ->
  exists v, nth_error f (argbest bt l k best b) = Some v /\ (forall e w, nth_error f e = Some w -> bt w v = false) /\ (forall e w, (e < argbest bt l k best b)%nat -> nth_error f e = Some w -> bt v w = true).
Proof.
  intros Nf. induction l as [|x l IH]; intros k best b Hb Hk Hs Hbest Hfirst.
  - cbn. exists b. split; [exact Hb|]. split; [|exact Hfirst]. intros e w He. apply (Hbest e w); [|exact He].
    assert (L : (e < length f)%nat) by (apply nth_error_Some; congruence). assert (H : (length (skipn k f) = length f - k)%nat) by apply skipn_length. rewrite Hs in H. cbn in H. lia.
  - assert (Hx : nth_error f k = Some x). { clear - Hs. revert f Hs. induction k as [|k IHk]; intros [|a f] Hs; cbn in *; try discriminate; [now injection Hs as ->|]. now apply IHk. }
    assert (Hs' : skipn (S k) f = l). { clear - Hs. revert f Hs. induction k as [|k IHk]; intros [|a f] Hs; cbn in *; try discriminate; [now injection Hs|]. now apply IHk. }
    cbn [argbest]. destruct (bt x b) eqn:Ex; apply IH; auto.
    + intros e v He Hv. destruct (Nat.eq_dec e k) as [->|D]; [rewrite Hx in Hv; injection Hv as <-; apply bt_irr|]. destruct (bt v x) eqn:Q; [|reflexivity]. rewrite <- (Hbest e v); [|lia|exact Hv]. symmetry. eapply bt_trans; eauto.
    + intros e v He Hv. destruct (bt_cotrans x b v) as [Q|Q]; [apply Nf; eapply nth_error_In; eauto|exact Ex|exact Q|]. rewrite (Hbest e v He Hv) in Q. discriminate.
    + intros e v He Hv. destruct (Nat.eq_dec e k) as [->|D]; [rewrite Hx in Hv; injection Hv as <-; exact Ex|]. apply (Hbest e); [lia|exact Hv].
Qed.
Definition nanbest (l : list xr) : res nat := if lower then nanargmin l else nanargmax l.
Lemma nanbest_spec l : some_value lower l -> exists e, nanbest l = Ok e /\ best_at lower l e.
Proof.
  intros (v0 & I0 & N0 & W0). set (w := worst lower). set (f := map (fill w) l).
  assert (Nw : w <> NaN) by (unfold w, worst; destruct lower; discriminate).
  assert (Nf : forall x, In x f -> x <> NaN). { intros x I. apply in_map_iff in I as (y & <- & _). unfold fill. destruct y; cbn; try discriminate. exact Nw. }
  assert (Al : forallb xisnan l = false). { destruct (forallb xisnan l) eqn:E; [|reflexivity]. rewrite forallb_forall in E. specialize (E v0 I0). destruct v0; cbn in E; congruence. }
  assert (E : nanbest l = match f with [] => Err ValueError | x :: r => Ok (argbest bt r 1 0 x) end).
  { unfold nanbest, nanargmin, nanargmax, nanarg, f, w, worst, bt. rewrite Al. destruct lower; reflexivity. }
  assert (Nl : f <> []) by (unfold f; destruct l; [destruct I0|discriminate]).
  destruct f as [|x r] eqn:Ef; [congruence|]. rewrite E. eexists. split; [reflexivity|].
  destruct (argbest_spec (x :: r) Nf r 1 0 x eq_refl) as (v & H1 & H2 & H3); [lia|reflexivity| | |].
  { intros [|e] v He Hv; [|lia]. cbn in Hv. injection Hv as <-. apply bt_irr. }
  { intros e v He. lia. }
  set (e := argbest bt r 1 0 x) in *. rewrite <- Ef in H1, H2, H3. unfold f in H1. rewrite nth_error_map in H1. destruct (nth_error l e) as [u|] eqn:Eu; [|discriminate]. injection H1 as H1.
  (* some value is better than the worst, hence the chosen one is a number *)
  assert (B0 : bt v0 w = true). { unfold bt, w, worst in *. destruct lower; destruct v0; cbn; try congruence; reflexivity. }
  assert (Q0 : bt v0 v = false). { apply In_nth_error in I0 as (e0 & I0). apply (H2 e0). unfold f. rewrite nth_error_map, I0. cbn. f_equal. unfold fill. destruct v0; cbn; congruence. }
  assert (Eu' : u <> NaN). { intros ->. unfold fill in H1. cbn in H1. rewrite <- H1 in Q0. congruence. }
  assert (v = u) as -> by (rewrite <- H1; unfold fill; destruct u; cbn; congruence).
  exists u. split; [exact Eu|]. split; [exact Eu'|]. split.
  - intros e' v' He' B. apply bt_better in B. destruct (bt_nan _ _ B) as [Nv _]. rewrite (H2 e' v') in B; [discriminate|]. unfold f. rewrite nth_error_map, He'. cbn. f_equal. unfold fill. destruct v'; cbn; congruence.
  - intros e' v' Lt He' Nv. apply bt_better, (H3 e'); [exact Lt|]. unfold f. rewrite nth_error_map, He'. cbn. f_equal. unfold fill. destruct v'; cbn; congruence.
Qed.
End Best.

(* ---------- the report ---------- *)
Lemma dict_new k v d : ~ In k (map fst d) -> dict_set k v d = d ++ [(k, v)].
Proof.
  induction d as [|[k' w] d IH]; intros H; [reflexivity|]. cbn in *. destruct (String.eqb_spec k' k) as [->|D]; [tauto|]. rewrite IH by tauto. reflexivity.
Qed.
Lemma dict_all info (f : nat -> xr) ms : forall d, NoDup (map fst d ++ map (fun i => mt_name (info i)) ms) ->
  fold_left (fun d iv => dict_set (mt_name (info (fst iv))) (snd iv) d) (combine ms (map f ms)) d = d ++ map (fun i => (mt_name (info i), f i)) ms.
Proof.
  induction ms as [|i ms IH]; intros d H; cbn; [now rewrite app_nil_r|]. cbn in H. rewrite dict_new by (apply NoDup_remove_2 in H; intros I; apply H, in_or_app; now left).
  rewrite IH; [rewrite <- app_assoc; reflexivity|]. rewrite map_app, <- app_assoc. exact H.
Qed.
Lemma row_at ms es e x : nth_error es e = Some x -> mapM (col_at (Some e)) (cols ms es) = Ok (map (snd x) ms).
Proof.
  intros H. unfold cols. induction ms as [|i ms IH]; cbn; [reflexivity|]. unfold pick_at. rewrite nth_error_map, H. cbn. rewrite IH. reflexivity.
Qed.
Lemma row_last ms es x : mapM (col_at None) (cols ms (es ++ [x])) = Ok (map (snd x) ms).
Proof. unfold cols. induction ms as [|i ms IH]; cbn [map mapM]; [reflexivity|]. unfold col_at at 1. rewrite map_app. cbn [map]. rewrite last_snoc. cbn [bind]. rewrite IH. reflexivity. Qed.
Lemma report_at info ms es x pick r (idx : option nat) : names_ok info ms ->
  col_at idx (map fst es) = Ok (fst x) -> mapM (col_at idx) (cols ms es) = Ok (map (snd x) ms) ->
  (loss <- col_at idx (l_val (Mlog (map fst es) (cols ms es) pick r)) ;;
   match ms with
   | [] => Ok [("loss"%string, loss)]
   | _ => row <- mapM (col_at idx) (l_mets (Mlog (map fst es) (cols ms es) pick r)) ;;
          Ok (fold_left (fun d iv => dict_set (mt_name (info (fst iv))) (snd iv) d) (combine ms row) [("loss"%string, loss)])
   end) = Ok (report info ms x).
Proof.
  intros N E1 E2. cbn [l_val l_mets]. rewrite E1. cbn [bind]. destruct ms as [|i ms]; [reflexivity|]. rewrite E2. cbn [bind]. rewrite dict_all; [reflexivity|]. exact N.
Qed.
