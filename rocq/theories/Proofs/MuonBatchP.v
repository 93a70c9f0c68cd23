(* Refinement: a batch behaves as a list of separate muons (C01, C02). *)
From Verif Require Import Model.MuonBatch Spec.MuonSpec.
From Coq Require Import Permutation.
Open Scope list_scope.

Notation len := List.length.

(* ---------- mapi ---------- *)
Lemma mapi_length {A B} (f : nat -> A -> B) l : len (mapi f l) = len l.
Proof. revert f; induction l as [|a l IH]; intro f; simpl; auto. Qed.
Lemma mapi_ext {A B} (f g : nat -> A -> B) l : (forall i a, f i a = g i a) -> mapi f l = mapi g l.
Proof. revert f g; induction l as [|a l IH]; intros f g E; simpl; auto. rewrite E. f_equal. apply IH; auto. Qed.
Lemma mapi_ext_lt {A B} (f g : nat -> A -> B) l :
  (forall i a, (i < len l)%nat -> f i a = g i a) -> mapi f l = mapi g l.
Proof.
  revert f g; induction l as [|a l IH]; intros f g E; simpl; auto.
  rewrite E by (simpl; lia). f_equal. apply IH. intros i b Hi. apply E. simpl; lia.
Qed.
Lemma mapi_mapi {A B C} (f : nat -> B -> C) (g : nat -> A -> B) l :
  mapi f (mapi g l) = mapi (fun i a => f i (g i a)) l.
Proof. revert f g; induction l as [|a l IH]; intros f g; simpl; auto. rewrite IH; auto. Qed.
Lemma map_mapi {A B C} (f : B -> C) (g : nat -> A -> B) l : map f (mapi g l) = mapi (fun i a => f (g i a)) l.
Proof. revert g; induction l as [|a l IH]; intros g; simpl; auto. rewrite IH; auto. Qed.
Lemma mapi_map {A B C} (f : nat -> B -> C) (g : A -> B) l : mapi f (map g l) = mapi (fun i a => f i (g a)) l.
Proof. revert f; induction l as [|a l IH]; intros f; simpl; auto. rewrite IH; auto. Qed.
Lemma mapi_id {A} (l : list A) : mapi (fun _ a => a) l = l.
Proof. induction l as [|a l IH]; simpl; auto. rewrite IH; auto. Qed.
Lemma mapi_const {A B} (f : A -> B) l : mapi (fun _ a => f a) l = map f l.
Proof. induction l as [|a l IH]; simpl; auto. rewrite IH; auto. Qed.

(* a full-length vector as a function of the index *)
Lemma map2_mapi {A B C} (f : A -> B -> C) l l' d :
  len l = len l' -> map2 f l l' = mapi (fun i a => f a (nth i l' d)) l.
Proof.
  revert l'; induction l as [|a l IH]; intros [|b l'] E; simpl in *; try discriminate; auto.
  f_equal. apply IH; lia.
Qed.
Lemma mapi_nth_vec {A} (vs : list A) {B} (l : list B) d :
  len vs = len l -> mapi (fun i _ => nth i vs d) l = vs.
Proof.
  revert vs; induction l as [|a l IH]; intros [|v vs] E; simpl in *; try discriminate; auto.
  f_equal; apply IH; lia.
Qed.

(* ---------- "selected" vectors ---------- *)
(* every vector computed inside an operation is the selection of a full-length vector [mapi F ms] *)
Section Sel.
Variable ms : list muon.
Variable m : list bool.
Hypothesis Hm : len m = len ms.

Definition selv (F : nat -> muon -> xr) : list xr := select m (mapi F ms).

Lemma selv_ext F G : (forall i u, F i u = G i u) -> selv F = selv G.
Proof. intro E; unfold selv; f_equal; apply mapi_ext; auto. Qed.
Lemma selv_length F : len (selv F) = count_true m.
Proof. unfold selv. apply select_length. rewrite mapi_length; auto. Qed.
Lemma map_selv f F : map f (selv F) = selv (fun i u => f (F i u)).
Proof. unfold selv. rewrite <- select_map, map_mapi; auto. Qed.
Lemma map2_selv f F G : map2 f (selv F) (selv G) = selv (fun i u => f (F i u) (G i u)).
Proof.
  unfold selv. rewrite <- select_map2. f_equal.
  clear Hm. revert F G. induction ms as [|u l IH]; intros F G; simpl; auto. f_equal. apply IH.
Qed.
Lemma bcast_selv f F (a : sarg) w :
  w = Some m \/ (w = None /\ m = all_true (len ms)) ->
  arg_ok (len ms) (Some a) = true ->
  bcast f (selv F) (call_arg w a) = Ok (selv (fun i u => f (F i u) (at_i a i))).
Proof.
  intros Hw Ha. destruct a as [v|vs].
  - assert (call_arg w (SAll v) = Sc v) as -> by (destruct w; auto).
    simpl. f_equal. apply map_selv.
  - simpl in Ha. apply Nat.eqb_eq in Ha.
    assert (call_arg w (SEach vs) = Vec (selv (fun i _ => nth i vs NaN))) as ->.
    { unfold selv. rewrite mapi_nth_vec by auto.
      destruct Hw as [-> | [-> Em]]; simpl; auto. rewrite Em, <- Ha, select_all; auto. }
    simpl. rewrite !selv_length, Nat.eqb_refl. f_equal. apply map2_selv.
Qed.
Lemma bcast_in_selv f F (a : sarg) w :
  w = Some m \/ (w = None /\ m = all_true (len ms)) ->
  arg_ok (len ms) (Some a) = true ->
  bcast_in f (selv F) (call_arg w a) = Ok (selv (fun i u => f (F i u) (at_i a i))).
Proof. intros Hw Ha. unfold bcast_in. rewrite bcast_selv by assumption. cbn [bind]. rewrite !selv_length, Nat.eqb_refl. reflexivity. Qed.
Lemma bool_index_selv fold F :
  bool_index (map fold (selv F)) (selv F) = Ok (select (map fold (selv F)) (selv F)).
Proof. apply bool_index_ok. apply map_length. Qed.

(* the inner masked assignment of the theta folding *)
Lemma fold_assign_selv (p : xr -> bool) (g : xr -> xr) F T :
  bool_assign (map p (selv T)) (selv F) (map g (select (map p (selv T)) (selv F)))
  = Ok (selv (fun i u => if p (T i u) then g (F i u) else F i u)).
Proof.
  rewrite bool_assign_ok.
  - rewrite put_select_map by (rewrite map_length, !selv_length; auto).
    rewrite map2_map_r.
    f_equal. rewrite <- (map2_selv (fun t f => if p t then g f else f) T F).
    generalize (selv T) (selv F). intros l l'. revert l.
    induction l' as [|x l' IH]; intros [|y l]; simpl; auto. f_equal; auto.
  - rewrite map_length, !selv_length; auto.
  - rewrite map_length. apply select_length. rewrite map_length, !selv_length; auto.
Qed.
Lemma bool_index_fold (p : xr -> bool) F T :
  bool_index (map p (selv T)) (selv F) = Ok (select (map p (selv T)) (selv F)).
Proof. apply bool_index_ok. rewrite map_length, !selv_length; auto. Qed.
End Sel.

(* the three facts about a column that are used *)
Definition col_lawful (c : column) : Prop := forall u, cset c u (cget c u) = u.
Lemma cx_law : col_lawful cx. Proof. intros []; reflexivity. Qed.
Lemma cy_law : col_lawful cy. Proof. intros []; reflexivity. Qed.
Lemma cz_law : col_lawful cz. Proof. intros []; reflexivity. Qed.
Lemma cth_law : col_lawful cth. Proof. intros []; reflexivity. Qed.
Lemma cph_law : col_lawful cph. Proof. intros []; reflexivity. Qed.

Lemma col_index_mapi c m (ms : list muon) (G : nat -> muon -> muon) :
  len m = len ms ->
  col_index c m (mapi G ms) = Ok (selv ms m (fun i u => cget c (G i u))).
Proof.
  intro Hm. unfold col_index, col, selv. rewrite map_mapi. apply bool_index_ok. rewrite mapi_length; auto.
Qed.

Lemma put_sel_mapi (l : list xr) m (V : list xr) :
  len m = len l -> len V = len l ->
  put m l (select m V) = mapi (fun i x => if nth i m false then nth i V NaN else x) l.
Proof.
  revert l V; induction m as [|b m IH]; intros [|x l] [|v V]; simpl; intros H1 H2; try discriminate; auto.
  destruct b; f_equal; apply IH; lia.
Qed.

Lemma col_assign_mapi c m (ms : list muon) (G : nat -> muon -> muon) (F : nat -> muon -> xr) :
  col_lawful c -> len m = len ms ->
  col_assign c m (mapi G ms) (selv ms m F)
  = Ok (mapi (fun i u => if nth i m false then cset c (G i u) (F i u) else G i u) ms).
Proof.
  intros Hc Hm. unfold col_assign.
  rewrite bool_assign_ok.
  2:{ unfold col. rewrite map_length, mapi_length; auto. }
  2:{ apply selv_length; auto. }
  simpl. f_equal. unfold selv, col. rewrite map_mapi.
  revert ms G F Hm. induction m as [|b m IH]; intros [|u ms] G F Hm; simpl in *; try discriminate; auto.
  destruct b; simpl.
  - f_equal. apply (IH ms (fun i => G (S i)) (fun i => F (S i))). lia.
  - rewrite Hc. f_equal. apply (IH ms (fun i => G (S i)) (fun i => F (S i))). lia.
Qed.

Lemma col_index_id c m (ms : list muon) :
  len m = len ms -> col_index c m ms = Ok (selv ms m (fun _ u => cget c u)).
Proof. intro Hm. rewrite <- (mapi_id ms) at 1. apply col_index_mapi; auto. Qed.
Lemma col_assign_id c m (ms : list muon) (F : nat -> muon -> xr) :
  col_lawful c -> len m = len ms ->
  col_assign c m ms (selv ms m F) = Ok (mapi (fun i u => if nth i m false then cset c u (F i u) else u) ms).
Proof. intros Hc Hm. rewrite <- (mapi_id ms) at 1. apply (col_assign_mapi c m ms (fun _ u => u)); auto. Qed.

(* ---------- the operations as per-muon functions ---------- *)
Definition upd (m : list bool) (f : nat -> muon -> muon) (ms : list muon) : list muon :=
  mapi (fun i u => if nth i m false then f i u else u) ms.

Section Ops.
Variable ms : list muon.
Variable w : option (list bool).
Hypothesis Hw : who_ok (len ms) w = true.
Let m := mask_or_ones (len ms) w.

Lemma m_len : len m = len ms.
Proof. unfold m. destruct w as [bs|]; simpl in *; [apply Nat.eqb_eq; auto | apply all_true_length]. Qed.
Lemma m_w : w = Some m \/ (w = None /\ m = all_true (len ms)).
Proof. unfold m. destruct w; auto. Qed.

Lemma arg_ok_mapi a : arg_ok (len ms) a = true -> forall G : nat -> muon -> muon, arg_ok (len (mapi G ms)) a = true.
Proof. intros; rewrite mapi_length; auto. Qed.

Ltac steps :=
  repeat first
    [ rewrite col_index_mapi by apply m_len
    | rewrite col_index_id by apply m_len
    | rewrite col_assign_id by (apply cx_law || apply cy_law || apply cz_law || apply cth_law || apply cph_law || apply m_len)
    | rewrite bcast_selv by (apply m_len || apply m_w || assumption)
    | rewrite bcast_in_selv by (apply m_len || apply m_w || assumption)
    | rewrite col_assign_mapi by (apply cx_law || apply cy_law || apply cz_law || apply cth_law || apply cph_law || apply m_len)
    | rewrite map_selv
    | rewrite map2_selv
    | rewrite bool_index_fold by apply m_len
    | rewrite fold_assign_selv by apply m_len
    | progress cbn [bind] ].

Lemma add_opt_spec c (G : nat -> muon -> muon) d :
  col_lawful c -> arg_ok (len ms) d = true ->
  add_opt c m (call_argo w d) (mapi G ms)
  = Ok (mapi (fun i u => if nth i m false
                         then cset c (G i u) (plus_opt (cget c (G i u)) (at_io d i))
                         else G i u) ms).
Proof.
  intros Hc Hd. destruct d as [a|]; simpl.
  - rewrite col_index_mapi by apply m_len. simpl.
    rewrite bcast_selv by (apply m_len || apply m_w || assumption). simpl.
    rewrite col_assign_mapi by (auto using m_len). reflexivity.
  - f_equal. apply mapi_ext; intros i u. rewrite Hc. destruct (nth i m false); auto.
Qed.

Lemma as_mapi : ms = mapi (fun _ u => u) ms.
Proof. symmetry; apply mapi_id. Qed.

Lemma move_spec dx dy dz :
  arg_ok (len ms) dx = true -> arg_ok (len ms) dy = true -> arg_ok (len ms) dz = true ->
  (ms1 <- add_opt cx m (call_argo w dx) ms ;; ms2 <- add_opt cy m (call_argo w dy) ms1 ;;
   add_opt cz m (call_argo w dz) ms2)
  = Ok (upd m (fun i => move1 (at_io dx i) (at_io dy i) (at_io dz i)) ms).
Proof.
  intros H1 H2 H3.
  rewrite as_mapi at 1.
  rewrite add_opt_spec by (apply cx_law || assumption). cbn [bind].
  rewrite add_opt_spec by (apply cy_law || assumption). cbn [bind].
  rewrite add_opt_spec by (apply cz_law || assumption).
  f_equal. unfold upd. apply mapi_ext; intros i u. destruct (nth i m false); auto.
Qed.

Lemma dphi_spec d (G : nat -> muon -> muon) :
  arg_ok (len ms) d = true ->
  dphi_part m (call_argo w d) (mapi G ms)
  = Ok (mapi (fun i u => if nth i m false
                         then with_ph (G i u) (match at_io d i with None => mph (G i u)
                                               | Some a => xmod (xadd (mph (G i u)) a) (2 * PI)%R end)
                         else G i u) ms).
Proof.
  intros Hd. destruct d as [a|]; unfold dphi_part; cbn [call_argo].
  - steps. reflexivity.
  - f_equal. apply mapi_ext; intros i u. destruct (nth i m false); auto. simpl. destruct (G i u); reflexivity.
Qed.

Lemma turn_spec dth dph :
  arg_ok (len ms) dth = true -> arg_ok (len ms) dph = true ->
  (ms1 <- dphi_part m (call_argo w dph) ms ;; dtheta_part m (call_argo w dth) ms1)
  = Ok (upd m (fun i => turn1 (at_io dth i) (at_io dph i)) ms).
Proof.
  intros H1 H2. rewrite as_mapi at 1. rewrite dphi_spec by auto. cbn [bind].
  destruct dth as [a|]; unfold dtheta_part; cbn [call_argo].
  - steps. f_equal. unfold upd. apply mapi_ext; intros i u.
    destruct (nth i m false) eqn:E; auto.
    unfold turn1, two_pi. cbn [at_io cget cset cth cph].
    destruct (at_io dph i); unfold with_th, with_ph; cbn [mx my mz mp mth mph];
      destruct (xlt (Fin PI) _); reflexivity.
  - reflexivity.
Qed.

Lemma vadd_spec d F :
  arg_ok (len ms) d = true ->
  vadd_opt (selv ms m F) (call_argo w d) = Ok (selv ms m (fun i u => plus_opt (F i u) (at_io d i))).
Proof.
  intro Hd. destruct d as [a|]; simpl vadd_opt.
  - rewrite bcast_in_selv by (apply m_len || apply m_w || assumption). reflexivity.
  - reflexivity.
Qed.

Lemma turn_xy_spec dtx dty :
  arg_ok (len ms) dtx = true -> arg_ok (len ms) dty = true ->
  dtheta_xy_part m (call_argo w dtx) (call_argo w dty) ms
  = Ok (upd m (fun i => turn_xy1 (at_io dtx i) (at_io dty i)) ms).
Proof.
  intros H1 H2. unfold dtheta_xy_part. steps. cbn zeta. steps. rewrite vadd_spec by auto. cbn [bind]. rewrite vadd_spec by auto. cbn [bind].
  steps. f_equal.
  unfold upd. apply mapi_ext; intros i u. destruct (nth i m false); auto.
Qed.

Lemma go_dz_spec dz :
  arg_ok (len ms) (Some dz) = true ->
  propagate_dz_ms m (call_arg w dz) ms = Ok (upd m (fun i => go_dz1 (at_i dz i)) ms).
Proof.
  intros H1. unfold propagate_dz_ms. steps. cbn zeta. steps. f_equal.
  unfold upd. apply mapi_ext; intros i u. destruct (nth i m false); auto.
Qed.

Lemma go_d_spec d :
  arg_ok (len ms) (Some d) = true ->
  propagate_d_ms m (call_arg w d) ms = Ok (upd m (fun i => go_d1 (at_i d i)) ms).
Proof.
  intros H1. unfold propagate_d_ms. steps. cbn zeta. steps. f_equal.
  unfold upd. apply mapi_ext; intros i u. destruct (nth i m false); auto.
Qed.

Lemma m_sel i : (i < len ms)%nat -> nth i m false = sel_i w i.
Proof.
  intro Hi. destruct m_w as [E | [E Em]].
  - unfold m. destruct w; simpl; auto. discriminate.
  - rewrite E, Em. simpl. unfold all_true. clear - Hi. revert i Hi.
    induction (len ms) as [|n IH]; intros [|i] Hi; simpl; auto; try lia. apply IH; lia.
Qed.

Lemma upd_each {H} f (l : list (obj H)) :
  ms = map o_mu l -> upd m f ms = map o_mu (each w f l).
Proof.
  intro E. unfold upd, each. rewrite E at 1. rewrite mapi_map, map_mapi.
  assert (forall i, (i < len l)%nat -> nth i m false = sel_i w i) as Hs.
  { intros i Hi. apply m_sel. rewrite E, map_length; auto. }
  apply mapi_ext_lt. intros i o Hi. rewrite Hs by auto. destruct (sel_i w i); auto.
Qed.
End Ops.

Lemma in_xy_box low high u : in_xy low high u = in_box low high u.
Proof.
  unfold in_xy, in_box. destruct low as [[lx ly]|], high as [[hx hy]|]; cbn [fst snd].
  all: repeat match goal with |- context [xle ?a ?b] => destruct (xle a b) end.
  all: repeat match goal with |- context [xlt ?a ?b] => destruct (xlt a b) end; reflexivity.
Qed.

(* ---------- filtering and hits ---------- *)
Section HitsP.
Variable H : Type.
Notation obj := (obj H).
Notation sstate := (sstate H).
Notation batch := (batch H).

Lemma keep_where_select (K : nat -> obj -> bool) l : keep_where K l = select (mapi K l) l.
Proof.
  revert K; induction l as [|o l IH]; intro K; simpl; auto.
  destruct (K 0%nat o); rewrite IH; auto.
Qed.
Lemma negm_mapi (K : nat -> obj -> bool) l : negm (mapi K l) = mapi (fun i o => negb (K i o)) l.
Proof. apply map_mapi. Qed.

Definition tcols (n : nat) (ts : list (list H)) : list (list H) := fold_right (map2 cons) (repeat [] n) ts.

Lemma tcols_length n ts : Forall (fun t => len t = n) ts -> len (tcols n ts) = n.
Proof.
  induction 1 as [|t ts Ht _ IH]; simpl.
  - apply repeat_length.
  - change (len (map2 cons t (tcols n ts)) = n). rewrite map2_length, IH, Ht. lia.
Qed.
Lemma select_repeat {A} m (a : A) : select m (repeat a (len m)) = repeat a (count_true m).
Proof. induction m as [|[] m IH]; simpl; auto. rewrite IH; auto. Qed.
Lemma tcols_select m ts :
  tcols (count_true m) (map (select m) ts) = select m (tcols (len m) ts).
Proof.
  induction ts as [|t ts IH]; simpl.
  - symmetry; apply select_repeat.
  - change (map2 cons (select m t) (tcols (count_true m) (map (select m) ts)) = select m (map2 cons t (tcols (len m) ts))).
    rewrite IH, select_map2. reflexivity.
Qed.
Lemma tcols_snoc n ts t :
  len t = n -> Forall (fun t => len t = n) ts ->
  tcols n (ts ++ [t]) = map2 (fun r h => r ++ [h]) (tcols n ts) t.
Proof.
  intros Ht. induction 1 as [|t0 ts H0 _ IH]; simpl.
  - subst n. induction t as [|h t IHt]; simpl; auto. rewrite IHt; auto.
  - change (map2 cons t0 (tcols n (ts ++ [t])) = map2 (fun r h => r ++ [h]) (map2 cons t0 (tcols n ts)) t).
    rewrite IH. generalize (tcols n ts) as X. clear.
    intro X. revert t X. induction t0 as [|h0 t0 IHt]; intros t [|x X]; simpl; auto.
    destruct t as [|h t]; simpl; auto. rewrite IHt; auto.
Qed.

Definition vt_ok (n : nat) (vt : string * list (list H)) : Prop :=
  snd vt <> [] /\ Forall (fun t => len t = n) (snd vt).
Definition hits_ok (n : nat) (d : hits_dict H) : Prop :=
  Forall (fun pv => Forall (vt_ok n) (snd pv)) d.

Lemma mapM_ok {A B} (f : A -> res B) (g : A -> B) l :
  Forall (fun a => f a = Ok (g a)) l -> mapM f l = Ok (map g l).
Proof. induction 1 as [|a l Ha _ IH]; simpl; auto. rewrite Ha; simpl. rewrite IH; auto. Qed.

Definition map_hits {V W} (g : V -> W) (d : list (string * list (string * V))) :=
  map (fun pv : string * list (string * V) =>
         (fst pv, map (fun vt : string * V => (fst vt, g (snd vt))) (snd pv))) d.

Lemma assoc_map {V W} (g : V -> W) k (d : list (string * V)) :
  assoc k (map (fun kv : string * V => (fst kv, g (snd kv))) d) =
  match assoc k d with Some v => Some (g v) | None => None end.
Proof. induction d as [|[k' v] d IH]; simpl; auto. destruct (String.eqb k k'); auto. Qed.
Lemma assoc2_map {V W} (g : V -> W) p v (d : list (string * list (string * V))) :
  assoc2 p v (map_hits g d) = match assoc2 p v d with Some t => Some (g t) | None => None end.
Proof.
  unfold assoc2, map_hits.
  rewrite (assoc_map (fun l => map (fun vt : string * V => (fst vt, g (snd vt))) l)).
  destruct (assoc p d) as [l|]; auto. apply assoc_map.
Qed.

Lemma filter_hits_ok keep d :
  hits_ok (len keep) d ->
  mapM (fun pv : string * list (string * list (list H)) =>
          vs <- mapM (fun vt : string * list (list H) =>
                  ts <- mapM (bool_index keep) (snd vt) ;; Ok (fst vt, ts)) (snd pv) ;;
          Ok (fst pv, vs)) d
  = Ok (map_hits (map (select keep)) d).
Proof.
  intro Hd. unfold map_hits. apply mapM_ok.
  eapply Forall_impl; [|exact Hd]. intros [p vs] Hvs. simpl in *.
  rewrite (mapM_ok _ (fun vt : string * list (list H) => (fst vt, map (select keep) (snd vt)))); [reflexivity|].
  eapply Forall_impl; [|exact Hvs]. intros [v ts] [_ Hts]. simpl in *.
  rewrite (mapM_ok _ (select keep)); [reflexivity|].
  eapply Forall_impl; [|exact Hts]. intros t Ht. apply bool_index_ok; auto.
Qed.

Lemma hits_ok_select keep d :
  hits_ok (len keep) d -> hits_ok (count_true keep) (map_hits (map (select keep)) d).
Proof.
  intro Hd. unfold hits_ok, map_hits. apply Forall_map. eapply Forall_impl; [|exact Hd].
  intros [p vs] Hvs; simpl in *. apply Forall_map. eapply Forall_impl; [|exact Hvs].
  intros [v ts] [Hn Hts]; simpl in *. split; simpl.
  - destruct ts; simpl; congruence.
  - apply Forall_map. eapply Forall_impl; [|exact Hts]. intros t Ht. apply select_length; auto.
Qed.

Lemma assoc_in {V} k (d : list (string * V)) v : assoc k d = Some v -> exists k', In (k', v) d.
Proof.
  induction d as [|[k' w] d IH]; simpl; [discriminate|].
  destruct (String.eqb k k'); intro E; [injection E as ->; eauto|].
  destruct (IH E) as [k'' Hk]; eauto.
Qed.
Lemma hits_ok_assoc2 n d p v ts : hits_ok n d -> assoc2 p v d = Some ts -> ts <> [] /\ Forall (fun t => len t = n) ts.
Proof.
  unfold hits_ok, assoc2. intros Hd E.
  destruct (assoc p d) as [l|] eqn:El; [|discriminate].
  apply assoc_in in El as [p' Hp]. apply assoc_in in E as [v' Hv].
  rewrite Forall_forall in Hd. specialize (Hd _ Hp). simpl in Hd.
  rewrite Forall_forall in Hd. exact (Hd _ Hv).
Qed.

(* ---------- the refinement relation ---------- *)
Definition key_rel (n : nat) (live : list obj) (keys : list (string * string)) (d : hits_dict H) (p v : string) : Prop :=
  match assoc2 p v d with
  | Some ts => In (p, v) keys /\ tcols n ts = map (hits_for p v) live
  | None => ~ In (p, v) keys /\ forall o, In o live -> hits_for p v o = []
  end.
Definition refines (b : batch) (s : sstate) : Prop :=
  b_muons b = map o_mu (s_live s)
  /\ b_removed b = match s_gone s with [] => None | g => Some g end
  /\ b_hist b = s_hist s
  /\ hits_ok (len (s_live s)) (b_hits b)
  /\ (b_hits b = [] <-> s_keys s = [])
  /\ forall p v, key_rel (len (s_live s)) (s_live s) (s_keys s) (b_hits b) p v.

Lemma refines_init us : refines (Batch us None [] []) (spec_init us).
Proof.
  unfold refines, spec_init; simpl. rewrite map_map. simpl. rewrite map_id.
  split; [reflexivity|]. split; [reflexivity|]. split; [reflexivity|]. split; [constructor|]. split; [tauto|].
  intros p v. unfold key_rel, assoc2; simpl. split; auto.
  intros o Ho. apply in_map_iff in Ho as [u [<- _]]. reflexivity.
Qed.

(* changing only coordinates *)
Lemma refines_live b s l :
  refines b s -> len l = len (s_live s) ->
  map o_log l = map o_log (s_live s) ->
  refines (with_muons b (map o_mu l)) (with_live s l).
Proof.
  intros (H1 & H2 & H3 & H4 & H5 & H6) Hl Hlog. unfold refines; simpl. rewrite Hl.
  repeat (split; [assumption || reflexivity|]).
  intros p v. specialize (H6 p v). unfold key_rel in *.
  assert (map (hits_for p v) l = map (hits_for p v) (s_live s)) as E.
  { assert (forall l' : list obj, map (hits_for p v) l' = map (fun lg => hits_for p v (Obj (Mu NaN NaN NaN NaN NaN NaN) lg)) (map o_log l')) as K
      by (intro l'; rewrite map_map; reflexivity).
    rewrite !K, Hlog; auto. }
  destruct (assoc2 p v (b_hits b)) as [ts|].
  - rewrite E; auto.
  - destruct H6 as [Hk Hz]. split; auto. intros o Ho.
    assert (In (hits_for p v o) (map (hits_for p v) l)) as Hin by (apply in_map; auto).
    rewrite E in Hin. apply in_map_iff in Hin as [o' [<- Ho']]. auto.
Qed.

Lemma each_logs w f (l : list obj) : map o_log (each w f l) = map o_log l.
Proof.
  unfold each. rewrite map_mapi. rewrite <- mapi_const. apply mapi_ext. intros i o. destruct (sel_i w i); auto.
Qed.
Lemma each_len w f (l : list obj) : len (each w f l) = len l.
Proof. apply mapi_length. Qed.

Lemma gone_app (g g' : list muon) :
  g' <> [] -> match g ++ g' with [] => None | x => Some x end
  = Some (match (match g with [] => None | x => Some x end) with None => g' | Some r => r ++ g' end).
Proof. intro Hn. destruct g as [|u g]; simpl; auto. destruct g'; congruence. Qed.

Lemma refines_filter b s (K : nat -> obj -> bool) :
  refines b s ->
  exists b', filter_muons (mapi K (s_live s)) b = Ok b' /\ refines b' (retain K s).
Proof.
  intros R. pose proof R as (H1 & H2 & H3 & H4 & H5 & H6).
  set (keep := mapi K (s_live s)) in *.
  assert (len keep = len (s_live s)) as Lk by apply mapi_length.
  unfold filter_muons.
  assert (len (b_muons b) = len (s_live s)) as Lm by (rewrite H1, map_length; auto).
  destruct (Nat.ltb_spec (count_true keep) (len (b_muons b))) as [Hlt|Hge].
  - rewrite bool_index_ok by (rewrite negm_length, Lk, Lm; auto). cbn [bind].
    rewrite bool_index_ok by (rewrite Lk, Lm; auto). cbn [bind].
    rewrite filter_hits_ok by (rewrite Lk; auto). cbn [bind].
    eexists. split; [reflexivity|].
    assert (s_live (retain K s) = select keep (s_live s)) as EL by apply keep_where_select.
    assert (len (select keep (s_live s)) = count_true keep) as ELn by (apply select_length; auto).
    assert (map o_mu (keep_where (fun i o => negb (K i o)) (s_live s)) = select (negm keep) (b_muons b)) as EG.
    { rewrite keep_where_select, <- negm_mapi. fold keep. rewrite H1, select_map. reflexivity. }
    unfold refines. rewrite EL. cbn [b_muons b_removed b_hist b_hits retain s_gone s_keys s_hist].
    rewrite EG, ELn.
    split; [rewrite H1, select_map; reflexivity|].
    split; [|split; [assumption|split; [|split]]].
    + rewrite gone_app.
      * rewrite H2. destruct (s_gone s); reflexivity.
      * intro E. apply (f_equal (@List.length _)) in E. simpl in E.
        rewrite select_length in E by (rewrite negm_length; lia).
        pose proof (select_perm keep (s_live s) Lk) as P. apply Permutation_length in P.
        rewrite app_length, !select_length in P by (rewrite ?negm_length; auto). lia.
    + apply hits_ok_select. rewrite Lk; auto.
    + rewrite <- H5. split; intro E.
      * destruct (b_hits b); [auto | discriminate].
      * rewrite E; reflexivity.
    + intros p v. specialize (H6 p v). unfold key_rel in *. rewrite assoc2_map.
      destruct (assoc2 p v (b_hits b)) as [ts|].
      * destruct H6 as [Hk Ht]. split; auto. rewrite tcols_select, Lk, Ht, select_map. reflexivity.
      * destruct H6 as [Hk Hz]. split; auto. intros o Ho. apply Hz. eapply in_select; eauto.
  - assert (count_true keep = len keep) as Hfull by (pose proof (count_true_le keep); lia).
    apply count_true_full in Hfull.
    exists b. split; [reflexivity|].
    assert (retain K s = s) as ->; [|assumption].
    unfold retain. rewrite !keep_where_select. rewrite <- negm_mapi. fold keep. rewrite Hfull, Lk.
    rewrite select_all.
    assert (select (negm (all_true (len (s_live s)))) (s_live s) = []) as ->.
    { clear. induction (s_live s) as [|o l IH]; simpl; auto. }
    simpl. rewrite app_nil_r. destruct s; reflexivity.
Qed.

Lemma keep_down_spec u : keep_down u = goes_down u.
Proof.
  unfold keep_down, goes_down. destruct (mth u), (mph u); simpl; auto; rewrite ?andb_true_r, ?andb_false_r; auto.
Qed.

Lemma refines_drop b s :
  refines b s -> exists b', remove_upwards_muons b = Ok b' /\ refines b' (drop_upward s).
Proof.
  intro R. pose proof R as (H1 & _).
  destruct (refines_filter b s (fun _ o => goes_down (o_mu o)) R) as [b' [E R']].
  exists b'. split; [|exact R']. unfold remove_upwards_muons. rewrite <- E. f_equal.
  rewrite H1, map_map. rewrite <- mapi_const. apply mapi_ext. intros. apply keep_down_spec.
Qed.

(* ---------- recording hits ---------- *)
Lemma assoc_update {V} k k' (dflt : V) f d :
  assoc k (dict_update k' dflt f d) =
  if String.eqb k k' then Some (f (match assoc k' d with Some v => v | None => dflt end)) else assoc k d.
Proof.
  induction d as [|[k0 v] d IH]; simpl.
  - destruct (String.eqb k k'); auto.
  - destruct (String.eqb_spec k' k0) as [->|Hn]; simpl.
    + destruct (String.eqb_spec k k0); auto.
    + rewrite IH. destruct (String.eqb_spec k k0) as [->|]; auto.
      destruct (String.eqb_spec k0 k'); congruence.
Qed.

Definition add1 (pos k : string) (t : list H) (d : hits_dict H) : hits_dict H :=
  dict_update pos [] (dict_update k [] (fun l => l ++ [t])) d.

Lemma assoc2_add1 p v pos k t d :
  assoc2 p v (add1 pos k t d) =
  if String.eqb p pos && String.eqb v k
  then Some ((match assoc2 pos k d with Some ts => ts | None => [] end) ++ [t])
  else assoc2 p v d.
Proof.
  unfold assoc2, add1. rewrite assoc_update.
  destruct (String.eqb_spec p pos) as [->|Hp]; simpl; auto.
  rewrite assoc_update.
  destruct (String.eqb_spec v k) as [->|Hv]; destruct (assoc pos d) as [l|]; simpl; auto.
Qed.

Lemma Forall_update {V} (P : V -> Prop) k dflt f (d : list (string * V)) :
  Forall (fun kv => P (snd kv)) d -> (forall v, P v -> P (f v)) -> P (f dflt) ->
  Forall (fun kv => P (snd kv)) (dict_update k dflt f d).
Proof.
  intros Hd Hf H0. induction Hd as [|[k' v] d Hv Hd IH]; simpl.
  - constructor; auto.
  - destruct (String.eqb k k'); constructor; simpl in *; auto.
Qed.

Lemma hits_ok_add1 n pos k t d : len t = n -> hits_ok n d -> hits_ok n (add1 pos k t d).
Proof.
  intros Ht Hd. unfold hits_ok, add1.
  apply (Forall_update (fun l => Forall (vt_ok n) l)); auto.
  - intros l Hl. unfold vt_ok in *.
    apply (Forall_update (fun ts => ts <> [] /\ Forall (fun t => len t = n) ts)); auto.
    + intros ts [_ Hts]. split; [destruct ts; simpl; congruence|]. apply Forall_app; auto.
    + simpl. split; [congruence|]. constructor; auto.
  - simpl. constructor; auto. split; simpl; [congruence|]. constructor; auto.
Qed.

Lemma dict_update_nonempty {V} k (dflt : V) f d : dict_update k dflt f d <> [].
Proof. destruct d as [|[k' v] d]; simpl; [congruence|]. destruct (String.eqb k k'); congruence. Qed.

Lemma hits_for_record1 p v k t pos i (o : obj) h :
  nth_error t i = Some h ->
  hits_for p v (record1 [(k, t)] pos i o) =
  hits_for p v o ++ (if String.eqb p pos && String.eqb v k then [h] else []).
Proof.
  intro E. unfold hits_for, record1. simpl. rewrite E. simpl. rewrite flat_map_app. simpl.
  rewrite (String.eqb_sym pos p), (String.eqb_sym k v), app_nil_r. reflexivity.
Qed.

Lemma map_hits_record p v k t pos (l : list obj) :
  len t = len l ->
  map (hits_for p v) (mapi (record1 [(k, t)] pos) l) =
  if String.eqb p pos && String.eqb v k
  then map2 (fun r h => r ++ [h]) (map (hits_for p v) l) t
  else map (hits_for p v) l.
Proof.
  intro Hl. rewrite map_mapi.
  transitivity (map2 (fun r h => r ++ (if String.eqb p pos && String.eqb v k then [h] else [])) (map (hits_for p v) l) t).
  - rewrite map2_map_l.
    assert (forall f : nat -> obj -> list H, (forall i o h, nth_error t i = Some h -> f i o = hits_for p v o ++ (if String.eqb p pos && String.eqb v k then [h] else [])) ->
       mapi f l = map2 (fun a b => hits_for p v a ++ (if String.eqb p pos && String.eqb v k then [b] else [])) l t) as K.
    { revert t Hl. induction l as [|o l IH]; intros [|h t] Hl f Hf; simpl in *; try discriminate; auto.
      rewrite (Hf 0%nat o h) by reflexivity. f_equal. apply IH; [lia|].
      intros i o' h' E. apply (Hf (S i)). exact E. }
    apply K. intros i o h E. apply hits_for_record1; auto.
  - destruct (String.eqb p pos && String.eqb v k); auto.
    rewrite map2_map_l. rewrite (map2_ext _ (fun o _ => hits_for p v o)) by (intros; apply app_nil_r).
    apply map2_const_r. auto.
Qed.

Definition record_s (hits : list (string * list H)) (pos : string) (s : sstate) : sstate :=
  SState (mapi (record1 hits pos) (s_live s)) (s_gone s)
         (s_keys s ++ map (fun kv => (pos, fst kv)) hits) (s_hist s).

Lemma refines_record_one b s k t pos :
  refines b s -> len t = len (s_live s) ->
  refines (Batch (b_muons b) (b_removed b) (add1 pos k t (b_hits b)) (b_hist b)) (record_s [(k, t)] pos s).
Proof.
  intros (H1 & H2 & H3 & H4 & H5 & H6) Ht.
  unfold refines, record_s; simpl. rewrite mapi_length.
  split; [rewrite map_mapi; simpl; rewrite mapi_const; auto|].
  split; [assumption|]. split; [assumption|].
  split; [apply hits_ok_add1; auto|].
  split.
  { split; intro E.
    - exfalso. eapply dict_update_nonempty; exact E.
    - destruct (s_keys s); discriminate. }
  intros p v. pose proof (H6 p v) as Hpv. unfold key_rel in *.
  rewrite assoc2_add1, map_hits_record by auto.
  destruct (String.eqb_spec p pos) as [->|Hp]; simpl.
  - destruct (String.eqb_spec v k) as [->|Hv]; simpl.
    + split; [apply in_or_app; right; simpl; auto|].
      destruct (assoc2 pos k (b_hits b)) as [ts|] eqn:E.
      * destruct Hpv as [_ Hc]. rewrite tcols_snoc; auto.
        -- rewrite Hc; auto.
        -- eapply hits_ok_assoc2; eauto.
      * destruct Hpv as [_ Hz]. rewrite tcols_snoc by auto. f_equal. simpl. clear - Hz.
        induction (s_live s) as [|o l IH]; simpl; auto.
        rewrite Hz by (simpl; auto). f_equal. apply IH. intros o' Ho'. apply Hz; simpl; auto.
    + destruct (assoc2 pos v (b_hits b)) as [ts|].
      * destruct Hpv. split; auto. apply in_or_app; auto.
      * destruct Hpv as [Hk Hz]. split.
        -- intro Hin. apply in_app_or in Hin as [Hin|[Hin|[]]]; auto. congruence.
        -- intros o Ho. assert (In (hits_for pos v o) (map (hits_for pos v) (mapi (record1 [(k, t)] pos) (s_live s)))) as Hi by (apply in_map; auto).
           rewrite map_hits_record in Hi by auto. rewrite String.eqb_refl in Hi.
           destruct (String.eqb_spec v k); [congruence|]. simpl in Hi.
           apply in_map_iff in Hi as [o' [<- Ho']]. auto.
  - destruct (assoc2 p v (b_hits b)) as [ts|].
    + destruct Hpv. split; auto. apply in_or_app; auto.
    + destruct Hpv as [Hk Hz]. split.
      -- intro Hin. apply in_app_or in Hin as [Hin|[Hin|[]]]; auto. congruence.
      -- intros o Ho. assert (In (hits_for p v o) (map (hits_for p v) (mapi (record1 [(k, t)] pos) (s_live s)))) as Hi by (apply in_map; auto).
         rewrite map_hits_record in Hi by auto.
         destruct (String.eqb_spec p pos); [congruence|]. simpl in Hi.
         apply in_map_iff in Hi as [o' [<- Ho']]. auto.
Qed.

Lemma record_s_cons k t hits pos s :
  record_s hits pos (record_s [(k, t)] pos s) = record_s ((k, t) :: hits) pos s.
Proof.
  unfold record_s; simpl. rewrite mapi_mapi, <- app_assoc. simpl. f_equal.
  apply mapi_ext. intros i o. unfold record1; simpl. rewrite app_nil_r, <- app_assoc. reflexivity.
Qed.
Lemma record_s_nil pos s : record_s [] pos s = s.
Proof.
  unfold record_s; simpl. rewrite app_nil_r. destruct s as [l g ks hs]; simpl. f_equal.
  rewrite <- (mapi_id l) at 2. apply mapi_ext. intros i [u lg]. unfold record1; simpl. rewrite app_nil_r; auto.
Qed.

Lemma refines_record hits pos : forall b s,
  refines b s -> forallb (fun kv : string * list H => Nat.eqb (len (snd kv)) (len (s_live s))) hits = true ->
  refines (append_hits hits pos b) (record_s hits pos s).
Proof.
  induction hits as [|[k t] hits IH]; intros b s R Hl.
  - rewrite record_s_nil. destruct b; exact R.
  - simpl in Hl. apply andb_true_iff in Hl as [Ht Hl]. apply Nat.eqb_eq in Ht.
    rewrite <- record_s_cons.
    specialize (IH _ _ (refines_record_one b s k t pos R Ht)).
    unfold append_hits in *. simpl in *. apply IH.
    simpl. rewrite mapi_length; auto.
Qed.

(* ---------- one command ---------- *)
Lemma refines_step b s c s' :
  refines b s -> spec_step s c = Some s' -> exists b', exec b (call c) = Ok b' /\ refines b' s'.
Proof.
  intros R E. pose proof R as (H1 & _).
  assert (len (b_muons b) = len (s_live s)) as L by (rewrite H1, map_length; auto).
  destruct c as [dx dy dz w|dth dph w|dtx dty w|dz w|d w|keep| | |hits pos]; cbn [spec_step] in E.
  - destruct (arg_ok _ dx) eqn:A1; [|discriminate]. destruct (arg_ok _ dy) eqn:A2; [|discriminate].
    destruct (arg_ok _ dz) eqn:A3; [|discriminate]. destruct (who_ok _ w) eqn:A4; [|discriminate].
    injection E as <-. rewrite <- L in *. simpl. unfold scatter_dxyz.
    pose proof (move_spec (b_muons b) w A4 dx dy dz A1 A2 A3) as M.
    destruct (add_opt cx _ _ (b_muons b)) as [m1|]; [|discriminate]. simpl in M |- *.
    destruct (add_opt cy _ _ m1) as [m2|]; [|discriminate]. simpl in M |- *.
    rewrite M. simpl. eexists; split; [reflexivity|].
    rewrite (upd_each (b_muons b) w A4 _ _ H1). apply refines_live; auto using each_len, each_logs.
  - destruct (arg_ok _ dth) eqn:A1; [|discriminate]. destruct (arg_ok _ dph) eqn:A2; [|discriminate].
    destruct (who_ok _ w) eqn:A4; [|discriminate].
    injection E as <-. rewrite <- L in *. simpl. unfold scatter_dtheta_dphi.
    pose proof (turn_spec (b_muons b) w A4 dth dph A1 A2) as M.
    destruct (dphi_part _ _ (b_muons b)) as [m1|]; [|discriminate]. cbn [bind] in M |- *.
    rewrite M. cbn [bind].
    rewrite (upd_each (b_muons b) w A4 _ _ H1).
    apply refines_drop. apply refines_live; auto using each_len, each_logs.
  - destruct (arg_ok _ dtx) eqn:A1; [|discriminate]. destruct (arg_ok _ dty) eqn:A2; [|discriminate].
    destruct (who_ok _ w) eqn:A4; [|discriminate].
    injection E as <-. rewrite <- L in *. simpl. unfold scatter_dtheta_xy.
    rewrite (turn_xy_spec (b_muons b) w A4 dtx dty A1 A2). cbn [bind].
    rewrite (upd_each (b_muons b) w A4 _ _ H1).
    apply refines_drop. apply refines_live; auto using each_len, each_logs.
  - destruct (arg_ok _ (Some dz)) eqn:A1; [|discriminate].
    destruct (who_ok _ w) eqn:A4; [|discriminate].
    injection E as <-. rewrite <- L in *. simpl. unfold propagate_dz.
    rewrite (go_dz_spec (b_muons b) w A4 dz A1). cbn [bind]. eexists; split; [reflexivity|].
    rewrite (upd_each (b_muons b) w A4 _ _ H1). apply refines_live; auto using each_len, each_logs.
  - destruct (arg_ok _ (Some d)) eqn:A1; [|discriminate].
    destruct (who_ok _ w) eqn:A4; [|discriminate].
    injection E as <-. rewrite <- L in *. simpl. unfold propagate_d.
    rewrite (go_d_spec (b_muons b) w A4 d A1). cbn [bind]. eexists; split; [reflexivity|].
    rewrite (upd_each (b_muons b) w A4 _ _ H1). apply refines_live; auto using each_len, each_logs.
  - destruct (Nat.eqb_spec (len keep) (len (s_live s))) as [Hk|]; [|discriminate]. injection E as <-.
    destruct (refines_filter b s (fun i _ => nth i keep false) R) as [b' [Eb R']].
    exists b'. split; [|exact R']. simpl. rewrite <- Eb. f_equal. symmetry. apply mapi_nth_vec; auto.
  - injection E as <-. simpl. apply refines_drop; auto.
  - injection E as <-. simpl. eexists; split; [reflexivity|].
    destruct R as (R1 & R2 & R3 & R4 & R5 & R6). unfold refines; simpl.
    split; [assumption|]. split; [assumption|]. split; [rewrite R3, R1, map_map; reflexivity|]. auto.
  - destruct (forallb _ hits) eqn:A; [|discriminate]. injection E as <-. simpl. eexists; split; [reflexivity|].
    apply refines_record; auto.
Qed.

Lemma refines_run cs : forall b s s',
  refines b s -> spec_run cs s = Some s' -> exists b', exec_all (map call cs) b = Ok b' /\ refines b' s'.
Proof.
  induction cs as [|c cs IH]; simpl; intros b s s' R E.
  - injection E as <-. exists b; split; [reflexivity|assumption].
  - destruct (spec_step s c) as [s1|] eqn:E1; [|discriminate].
    destruct (refines_step b s c s1 R E1) as [b1 [Eb R1]].
    unfold exec_all; simpl. rewrite Eb. simpl. eapply IH; eauto.
Qed.

(* ---------- reading the hits back ---------- *)
Lemma stack1_ok n ts : ts <> [] -> Forall (fun t => len t = n) ts -> stack1 ts = Ok (tcols n ts).
Proof.
  intros Hn Ht. destruct ts as [|t ts]; [congruence|]. unfold stack1, tcols.
  assert (len t = n) as E by (inversion Ht; auto). rewrite E.
  assert (forallb (fun t' => Nat.eqb (len t') n) (t :: ts) = true) as ->; auto.
  apply forallb_forall. intros t' Hin. rewrite Forall_forall in Ht. apply Nat.eqb_eq; auto.
Qed.

Lemma map_dict2_ok {V W} (f : V -> res W) (g : V -> W) d :
  Forall (fun pv : string * list (string * V) => Forall (fun vt => f (snd vt) = Ok (g (snd vt))) (snd pv)) d ->
  map_dict2 f d = Ok (map_hits g d).
Proof.
  intro Hd. unfold map_dict2, map_hits. apply mapM_ok. eapply Forall_impl; [|exact Hd].
  intros [p vs] Hvs. simpl in *.
  rewrite (mapM_ok _ (fun cv : string * V => (fst cv, g (snd cv)))); [reflexivity|].
  eapply Forall_impl; [|exact Hvs]. intros [v t] Ht. simpl in *. rewrite Ht. reflexivity.
Qed.

Lemma get_hits_spec b s low high :
  refines b s ->
  match get_hits low high b with
  | Err e => e = ValueError /\ s_keys s = []
  | Ok d => s_keys s <> [] /\
      forall p v, (In (p, v) (s_keys s) -> assoc2 p v d = Some (map (hits_for p v) (asked low high (s_live s))))
               /\ (~ In (p, v) (s_keys s) -> assoc2 p v d = None)
  end.
Proof.
  intros (H1 & H2 & H3 & H4 & H5 & H6).
  set (n := len (s_live s)) in *.
  set (M := get_xy_mask low high b).
  assert (M = map (fun o => in_box low high (o_mu o)) (s_live s)) as EM.
  { unfold M, get_xy_mask. rewrite H1, map_map. apply map_ext. intro; apply in_xy_box. }
  assert (len M = n) as LM by (rewrite EM, map_length; auto).
  assert (s_keys s = [] \/ s_keys s <> []) as [Hk|Hk] by (destruct (s_keys s); [left; auto | right; discriminate]).
  - unfold get_hits. assert (b_hits b = []) as -> by tauto. auto.
  - assert (b_hits b <> []) as Hb by tauto.
    assert (exists sub : list (list H) -> list (list H),
              get_hits low high b = Ok (map_hits (fun ts => sub (tcols n ts)) (b_hits b))
              /\ forall p v, sub (map (hits_for p v) (s_live s)) = map (hits_for p v) (asked low high (s_live s))) as [sub [Eg Hsub]].
    { assert (K : forall low' high', (low' <> None \/ high' <> None) -> low' = low -> high' = high ->
        map_dict2 (fun ts => st <- stack1 ts ;; bool_index M st) (b_hits b) = Ok (map_hits (fun ts => select M (tcols n ts)) (b_hits b))
        /\ forall p v, select M (map (hits_for p v) (s_live s)) = map (hits_for p v) (asked low' high' (s_live s))).
      { intros low' high' Hne -> ->. split.
        - apply map_dict2_ok. eapply Forall_impl; [|exact H4]. intros [p vs] Hvs. simpl in *.
          eapply Forall_impl; [|exact Hvs]. intros [v ts] [Hn Hts]. simpl in *.
          rewrite (stack1_ok n) by auto. cbn [bind]. apply bool_index_ok. rewrite tcols_length; auto.
        - intros p v. rewrite EM, select_map, select_filter. unfold asked.
          destruct low, high; auto. destruct Hne; congruence. }
      unfold get_hits. fold M.
      destruct (b_hits b) as [|e d] eqn:Ed; [congruence|].
      destruct low as [lo|], high as [hi|]; try solve [eexists; apply K; auto; (left; discriminate) || (right; discriminate)].
      exists (fun x => x). split; auto.
      apply map_dict2_ok. eapply Forall_impl; [|exact H4]. intros [p vs] Hvs. simpl in *.
      eapply Forall_impl; [|exact Hvs]. intros [v ts] [Hn Hts]. simpl in *. apply stack1_ok; auto. }
    rewrite Eg. split; auto. intros p v. rewrite assoc2_map. specialize (H6 p v). unfold key_rel in H6.
    destruct (assoc2 p v (b_hits b)) as [ts|].
    + destruct H6 as [Hin Ht]. split; [intros _; rewrite Ht, Hsub; auto | tauto].
    + destruct H6 as [Hin _]. split; [tauto | auto].
Qed.
End HitsP.

(* filtering succeeds when the hits are aligned *)
Lemma filter_ok {H} keep (b : batch H) :
  len keep = len (b_muons b) -> aligned (len (b_muons b)) (b_hits b) -> exists b', filter_muons keep b = Ok b'.
Proof.
  intros L A. unfold filter_muons. destruct (Nat.ltb _ _); [|eauto].
  rewrite bool_index_ok by (rewrite negm_length; auto). cbn [bind].
  rewrite bool_index_ok by auto. cbn [bind].
  rewrite (mapM_ok _ (fun pv : string * list (string * list (list H)) =>
         (fst pv, map (fun vt : string * list (list H) => (fst vt, map (select keep) (snd vt))) (snd pv)))).
  - cbn [bind]. eauto.
  - apply Forall_forall. intros [p vs] Hp. simpl.
    rewrite (mapM_ok _ (fun vt : string * list (list H) => (fst vt, map (select keep) (snd vt)))); [reflexivity|].
    apply Forall_forall. intros [v ts] Hv. simpl.
    rewrite (mapM_ok _ (select keep)); [reflexivity|].
    apply Forall_forall. intros t Ht. apply bool_index_ok. rewrite L. symmetry. eapply A; eauto.
Qed.

Lemma new_batch_start {H} rows z : new_batch (H := H) rows (Sc z) = Ok (Batch (map (start_at z) rows) None [] []).
Proof.
  reflexivity.
Qed.

Lemma batch_refinement {H} rows z (cmds : list (cmd H)) s :
  spec_run cmds (spec_init (map (start_at z) rows)) = Some s ->
  exists b, (b0 <- new_batch rows (Sc z) ;; exec_all (map call cmds) b0) = Ok b
    /\ b_muons b = map o_mu (s_live s)
    /\ b_removed b = match s_gone s with [] => None | g => Some g end
    /\ b_hist b = s_hist s
    /\ forall low high,
        match get_hits low high b with
        | Err e => e = ValueError /\ s_keys s = []
        | Ok d => s_keys s <> [] /\
            forall p v, (In (p, v) (s_keys s) -> assoc2 p v d = Some (map (hits_for p v) (asked low high (s_live s))))
                     /\ (~ In (p, v) (s_keys s) -> assoc2 p v d = None)
        end.
Proof.
  intro E. rewrite new_batch_start. cbn [bind].
  destruct (refines_run H cmds _ _ _ (refines_init H (map (start_at z) rows)) E) as [b [Eb R]].
  exists b. split; [exact Eb|]. pose proof R as (R1 & R2 & R3 & _).
  split; [assumption|]. split; [assumption|]. split; [assumption|].
  intros low high. apply get_hits_spec; auto.
Qed.
