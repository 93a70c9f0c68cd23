(* The PoCA-based inferrer of the fill level. *)
From Coq Require Import Psatz Lia ZArith Permutation.
From Verif Require Import Model.Ladle Model.PocaZ Spec.InferSpec Spec.PocaSpec Proofs.GenP Proofs.EffP Proofs.InferStateP Proofs.CombineP Proofs.LadleP Proofs.OrderP.
Open Scope R_scope.
Open Scope list_scope.

(* --- what the fields are computed from --- *)
Definition pcombined (bs : list (res sview)) : res (tensor2 * tensor2 * list xr * nat) :=
  match bs with
  | [] => Err ValueError
  | _ => vs <- mapM (fun b => b) bs ;; m <- poca_mask vs ;; es <- mapM panel_efficiency vs ;;
         Ok (select m (flat_map s_poca vs), select m (flat_map s_poca_unc vs), select m (concat es), List.length (select m (flat_map s_poca vs)))
  end.
Lemma poca_mask_len bs m : poca_mask bs = Ok m -> List.length m = List.length (flat_map s_poca bs) /\ List.length m = List.length (flat_map s_poca_unc bs).
Proof.
  unfold poca_mask. cbv zeta. intros E. repeat match type of E with context [mask_mul ?a ?b] =>
    let H := fresh "H" in let x := fresh "x" in destruct (mask_mul a b) as [x|] eqn:H; cbn [bind] in E; [|discriminate] end.
  injection E as <-. apply mask_mul_len in H as (L1 & M1), H0 as (L2 & M2), H1 as (L3 & M3), H2 as (L4 & M4). unfold not_any in *. rewrite !map_length in *. lia.
Qed.
Lemma pcombine_run bs : eff_good panel_efficiency bs -> poca_combine (given bs) = match pcombined bs with Ok c => (Ok tt, st bs c None None None) | Err e => (Err e, given bs) end.
Proof.
  intro G. unfold poca_combine, pcombined, seqA at 1, field. cbn [i_batches given]. destruct bs as [|b0 bs0]; [reflexivity|].
  remember (b0 :: bs0) as bs eqn:Eb. clear Eb. unfold seqA at 1, lift at 1.
  destruct (mapM (fun b : res sview => b) bs) as [vs|e] eqn:Ev; [|reflexivity]. cbn [bind]. apply read_batches in Ev. subst bs.
  unfold seqA at 1, lift at 1. destruct (poca_mask vs) as [m|e] eqn:Em; [|reflexivity]. cbn [bind]. apply poca_mask_len in Em as (L & Lu).
  destruct (effs_good panel_efficiency vs G) as (es & Es & Le). rewrite Es. cbn [bind].
  unfold seqA at 1, lift at 1. rewrite bool_index_ok by lia. unfold seqA at 1, upd at 1. unfold seqA at 1, lift at 1. rewrite bool_index_ok by lia.
  unfold seqA at 1, upd at 1. unfold seqA at 1, lift at 1. unfold seqA at 1, lift at 1. rewrite bool_index_ok by lia. reflexivity.
Qed.

Section S.
Variables (cdf : R -> R -> R -> R) (lw : R * R) (size : R).
Definition W (s : R) : list R := map (pixel_weight s lw) (xy_centres lw size).
Definition pheight (gw : list R) (c : tensor2 * tensor2 * list xr * nat) : res xr :=
  let '(V, U, E, N) := c in
  if Nat.eqb (List.length E) N then (ms <- mapM (fun vu => seen_of (fst vu) (snd vu)) (combine V U) ;; height_with cdf lw size gw E ms) else Err RuntimeError.
Definition pknown (bs : list (res sview)) (s : R) (r : pread) : res ians :=
  match r with
  | PPred => match bs with [] => Ok ANone | _ => c <- pcombined bs ;; h <- pheight (W s) c ;; Ok (AVec [h]) end
  | PVars => c <- pcombined bs ;; Ok (AMat (fst (fst (fst c))))
  | PUncs => c <- pcombined bs ;; Ok (AMat (snd (fst (fst c))))
  | PEff => c <- pcombined bs ;; Ok (AVec (snd (fst c)))
  | PNum => c <- pcombined bs ;; Ok (AN (snd c))
  end.

(* whether there is a prediction does not depend on the weights of the pixels *)
Lemma sig_err gw gw' m : match sig_weight cdf lw size gw m, sig_weight cdf lw size gw' m with Ok _, Ok _ => True | Err e, Err e' => e = e' | _, _ => False end.
Proof. unfold sig_weight. destruct (sn_unc m) as [[ux uy] uz]. destruct (Rltb 0 ux && Rltb 0 uy); auto. Qed.
Lemma sigs_err gw gw' ms : match mapM (sig_weight cdf lw size gw) ms, mapM (sig_weight cdf lw size gw') ms with
  Ok l, Ok l' => length l = length ms /\ length l' = length ms | Err e, Err e' => e = e' | _, _ => False end.
Proof.
  induction ms as [|m ms IH]; [cbn; auto|]. cbn [mapM]. pose proof (sig_err gw gw' m) as H.
  destruct (sig_weight cdf lw size gw m), (sig_weight cdf lw size gw' m); try tauto. cbn [bind].
  destruct (mapM (sig_weight cdf lw size gw) ms), (mapM (sig_weight cdf lw size gw') ms); try tauto. cbn [bind length]. lia.
Qed.
Lemma xkth_err k l l' : length l = length l' -> match xkth k l, xkth k l' with Ok _, Ok _ => True | Err e, Err e' => e = e' | _, _ => False end.
Proof. intros L. unfold xkth. rewrite L. destruct (_ && _)%bool; auto. Qed.
Lemma map2_length2 {A B C} (f : A -> B -> C) l m : length (map2 f l m) = Nat.min (length l) (length m).
Proof. revert m. induction l as [|a l IH]; intros [|b m]; cbn; auto. Qed.
Lemma height_err gw gw' E ms e : height_with cdf lw size gw E ms = Err e -> height_with cdf lw size gw' E ms = Err e.
Proof.
  unfold height_with. pose proof (sigs_err gw gw' ms) as H.
  destruct (mapM (sig_weight cdf lw size gw) ms) as [l|], (mapM (sig_weight cdf lw size gw') ms) as [l'|]; try tauto; cbn [bind]; [|congruence]. destruct H as [L L'].
  destruct (xkth (quantile_index 0.15865 (length ms)) _) as [lo|]; cbn [bind]; [|auto]. destruct (xkth (quantile_index 0.84135 (length ms)) (map _ ms)) as [hi|]; cbn [bind]; [|auto].
  set (f := fun (p : R * xr) u => _). set (u := map (xclip lo hi) _).
  pose proof (xkth_err (quantile_index 0.84135 (length ms)) (map2 f (combine l E) u) (map2 f (combine l' E) u)) as K.
  rewrite !map2_length2, !combine_length, L, L' in K. specialize (K eq_refl).
  destruct (xkth _ (map2 f (combine l E) u)), (xkth _ (map2 f (combine l' E) u)); try tauto; cbn [bind]; [discriminate|congruence].
Qed.
Lemma pheight_err gw gw' c e : pheight gw c = Err e -> pheight gw' c = Err e.
Proof.
  destruct c as [[[V U] E] N]. unfold pheight. destruct (Nat.eqb (length E) N); [|auto]. destruct (mapM _ (combine V U)); cbn [bind]; [|auto]. apply height_err.
Qed.

(* --- the states an inferrer can be in: batches bs, prediction kept since smooth was kept --- *)
Definition unpredicted (bs : list (res sview)) (kept : option R) : Prop :=
  forall x c, kept = Some x -> pcombined bs = Ok c -> exists e, pheight (W x) c = Err e.
Inductive pinv (bs : list (res sview)) (kept : option R) : inf -> Prop :=
| pinv0 : unpredicted bs kept -> pinv bs kept (given bs)
| pinv1 c : pcombined bs = Ok c -> unpredicted bs kept -> pinv bs kept (st bs c None None None)
| pinv2 c x h : pcombined bs = Ok c -> kept = Some x -> pheight (W x) c = Ok h -> pinv bs kept (st bs c None (Some [h]) None).
Lemma unpredicted_err bs x c e : pcombined bs = Ok c -> pheight (W x) c = Err e -> unpredicted bs (Some x).
Proof. intros E H y d [= ->] E'. rewrite E in E'. injection E' as <-. eauto. Qed.
Lemma unpredicted_none bs x e : pcombined bs = Err e -> unpredicted bs (Some x).
Proof. intros E y d _ E'. congruence. Qed.

Lemma pensure_given bs : eff_good panel_efficiency bs -> poca_ensure (given bs) = match pcombined bs with Ok c => (Ok tt, st bs c None None None) | Err e => (Err e, given bs) end.
Proof. intro G. unfold poca_ensure, seqA, field. cbn [i_vars i_uncs given]. apply pcombine_run, G. Qed.
Lemma pensure_st bs c X : poca_ensure (st bs c None X None) = (Ok tt, st bs c None X None).
Proof. destruct c as [[[V U] E] N]. reflexivity. Qed.

Lemma pfield {A} bs kept s (f : inf -> A) h : eff_good panel_efficiency bs -> pinv bs kept s -> (forall c X, f (st bs c None X None) = h c) ->
  fst (seqA poca_ensure (fun _ => field f) s) = (c <- pcombined bs ;; Ok (h c)) /\ pinv bs kept (snd (seqA poca_ensure (fun _ => field f) s)).
Proof.
  intros G I F. unfold seqA, field. destruct I as [U|c E U|c x hh E K H].
  - rewrite pensure_given by auto. destruct (pcombined bs) as [c|e] eqn:E; cbn [fst snd bind]; [rewrite F; split; [auto|now constructor 2]|split; [auto|now constructor]].
  - rewrite pensure_st, E. cbn [fst snd bind]. rewrite F. split; [auto|now constructor 2].
  - rewrite pensure_st, E. cbn [fst snd bind]. rewrite F. split; [auto|econstructor 3; eauto].
Qed.
(* no batch at all: nothing is kept *)
Lemma pheight_st bs c gw : poca_height cdf lw size gw (st bs c None None None) = (pheight gw c, st bs c None None None).
Proof.
  destruct c as [[[V U] E] N].
  assert (poca_height cdf lw size gw (st bs (V, U, E, N) None None None) =
    (if Nat.eqb (List.length E) N then seqA (lift (mapM (fun vu => seen_of (fst vu) (snd vu)) (combine V U))) (fun ms => lift (height_with cdf lw size gw E ms)) else raise RuntimeError)
      (st bs (V, U, E, N) None None None)) as -> by reflexivity.
  unfold pheight. destruct (Nat.eqb (length E) N); [|reflexivity]. unfold seqA, lift. destruct (mapM _ (combine V U)); reflexivity.
Qed.
Lemma pheight_given bs gw : eff_good panel_efficiency bs -> poca_height cdf lw size gw (given bs) = match pcombined bs with Ok c => (pheight gw c, st bs c None None None) | Err e => (Err e, given bs) end.
Proof.
  intro G. assert (poca_vars (given bs) = match pcombined bs with Ok c => poca_vars (st bs c None None None) | Err e => (Err e, given bs) end) as E.
  { unfold poca_vars, seqA. rewrite pensure_given by auto. destruct (pcombined bs) as [[[[V U] Ef] N]|e]; reflexivity. }
  destruct (pcombined bs) as [c|e] eqn:Ec.
  - rewrite <- pheight_st. unfold poca_height at 1 2. unfold seqA at 1. rewrite E. unfold seqA at 7. reflexivity.
  - unfold poca_height, seqA at 1. now rewrite E.
Qed.
Lemma get_st bs c gw : get_height cdf lw size gw (st bs c None None None) = match pheight gw c with
  Ok h => (Ok [h], st bs c None (Some [h]) None) | Err e => (Err e, st bs c None None None) end.
Proof.
  assert (get_height cdf lw size gw (st bs c None None None) = seqA (poca_height cdf lw size gw) (fun h => seqA (upd (set_preds [h])) (fun _ => ret [h])) (st bs c None None None)) as ->
    by (destruct c as [[[V U] E] N]; reflexivity).
  unfold seqA at 1. rewrite pheight_st. destruct (pheight gw c); [|reflexivity]. destruct c as [[[V U] E] N]; reflexivity.
Qed.
Lemma get_given bs gw : eff_good panel_efficiency bs -> get_height cdf lw size gw (given bs) = match pcombined bs with
  Ok c => match pheight gw c with Ok h => (Ok [h], st bs c None (Some [h]) None) | Err e => (Err e, st bs c None None None) end
  | Err e => (Err e, given bs) end.
Proof.
  intro G. assert (get_height cdf lw size gw (given bs) = seqA (poca_height cdf lw size gw) (fun h => seqA (upd (set_preds [h])) (fun _ => ret [h])) (given bs)) as -> by reflexivity.
  unfold seqA at 1. rewrite pheight_given by auto. destruct (pcombined bs) as [c|]; [|reflexivity]. destruct (pheight gw c); [|reflexivity]. destruct c as [[[V U] E] N]; reflexivity.
Qed.
Lemma get_kept bs c gw h : get_height cdf lw size gw (st bs c None (Some h) None) = (Ok h, st bs c None (Some h) None).
Proof. destruct c as [[[V U] E] N]; reflexivity. Qed.
Lemma ask_pred gw s : i_batches s <> [] -> pask cdf lw size gw PPred s = match get_height cdf lw size gw s with (Ok h, s') => (Ok (AVec h), s') | (Err e, s') => (Err e, s') end.
Proof.
  intros H. unfold pask, poca_prediction. unfold seqA at 1 2, field. destruct (i_batches s); [congruence|]. unfold seqA. destruct (get_height cdf lw size gw s) as [[h|e] s']; reflexivity.
Qed.
Lemma pred_inv bs kept s smooth : eff_good panel_efficiency bs -> pinv bs kept s ->
  let x := match kept with Some x => x | None => smooth end in
  fst (pask cdf lw size (W smooth) PPred s) = pknown bs x PPred /\ pinv bs (Some x) (snd (pask cdf lw size (W smooth) PPred s)).
Proof.
  intros G I x. assert (HB : i_batches s = bs) by (destruct I as [U|[[[V U] E] N] Ec Un|[[[V U] E] N] y h Ec K H]; reflexivity).
  destruct bs as [|b0 bs0] eqn:Eb.
  { destruct I as [U|c E U|c y h E K H]; [|discriminate E..]. cbn. split; [reflexivity|]. constructor. intros y c _ E. discriminate E. }
  assert (N0 : i_batches s <> []) by (rewrite HB; discriminate).
  rewrite ask_pred by exact N0. rewrite <- Eb in *. replace (pknown bs x PPred) with (c <- pcombined bs ;; h <- pheight (W x) c ;; Ok (AVec [h])) by (subst bs; reflexivity). clear Eb HB N0 b0 bs0.
  assert (H0 : unpredicted bs kept -> forall c, pcombined bs = Ok c -> pheight (W smooth) c = pheight (W x) c).
  { intros U c E. destruct kept as [y|]; [|reflexivity]. destruct (U y c eq_refl E) as [e Ey]. unfold x. rewrite (pheight_err _ (W smooth) _ _ Ey). now rewrite Ey. }
  destruct I as [U|c E U|c y h E K H].
  - rewrite get_given by auto. destruct (pcombined bs) as [c|e] eqn:E; cbn [bind].
    + rewrite (H0 U c eq_refl). destruct (pheight (W x) c) as [h|e] eqn:Eh; cbn [bind fst snd]; (split; [reflexivity|]).
      * exact (pinv2 bs (Some x) c x h E eq_refl Eh).
      * constructor 2; [exact E|]. exact (unpredicted_err bs x c e E Eh).
    + cbn [fst snd]. split; [reflexivity|]. constructor. exact (unpredicted_none bs x e E).
  - rewrite get_st, E. cbn [bind]. rewrite (H0 U c E). destruct (pheight (W x) c) as [h|e] eqn:Eh; cbn [bind fst snd]; (split; [reflexivity|]).
    + exact (pinv2 bs (Some x) c x h E eq_refl Eh).
    + constructor 2; [exact E|]. exact (unpredicted_err bs x c e E Eh).
  - rewrite get_kept, E. cbn [bind]. subst kept. unfold x. rewrite H. cbn [bind fst snd]. split; [reflexivity|]. exact (pinv2 bs (Some y) c y h E eq_refl H).
Qed.
Lemma need_eq {A B} (f : inf -> option A) (g : A -> B) s e : 
  seqA (seqA poca_ensure (fun _ => seqA (field f) (fun v => need v e))) (fun t => ret (g t)) s =
  match seqA poca_ensure (fun _ => field f) s with (Ok (Some a), s') => (Ok (g a), s') | (Ok None, s') => (Err e, s') | (Err e', s') => (Err e', s') end.
Proof. unfold seqA, field. destruct (poca_ensure s) as [[[]|e'] s']; [|reflexivity]. destruct (f s'); reflexivity. Qed.
Lemma ret_eq {A B} (m : act A) (g : A -> B) s : seqA m (fun t => ret (g t)) s = match m s with (Ok a, s') => (Ok (g a), s') | (Err e', s') => (Err e', s') end.
Proof. reflexivity. Qed.
Lemma ask_inv bs kept s smooth r : eff_good panel_efficiency bs -> pinv bs kept s -> r <> PPred ->
  fst (pask cdf lw size (W smooth) r s) = pknown bs smooth r /\ pinv bs kept (snd (pask cdf lw size (W smooth) r s)).
Proof.
  intros G I N. destruct r; [congruence|..]; unfold pask.
  - destruct (pfield bs kept s i_vars (fun c => Some (fst (fst (fst c)))) G I) as [E J]; [intros [[[V U] E] M] X; reflexivity|].
    unfold poca_vars. rewrite need_eq. destruct (seqA poca_ensure _ s) as [[[a|]|e] s']; cbn [fst snd pknown] in *; destruct (pcombined bs); cbn [bind] in *; try discriminate E; injection E as <-; auto.
  - destruct (pfield bs kept s i_uncs (fun c => Some (snd (fst (fst c)))) G I) as [E J]; [intros [[[V U] E] M] X; reflexivity|].
    unfold poca_uncs. rewrite need_eq. destruct (seqA poca_ensure _ s) as [[[a|]|e] s']; cbn [fst snd pknown] in *; destruct (pcombined bs); cbn [bind] in *; try discriminate E; injection E as <-; auto.
  - destruct (pfield bs kept s i_eff (fun c => Some (snd (fst c))) G I) as [E J]; [intros [[[V U] E] M] X; reflexivity|].
    unfold poca_eff. rewrite ret_eq. destruct (seqA poca_ensure _ s) as [[[a|]|e] s']; cbn [fst snd pknown] in *; destruct (pcombined bs); cbn [bind] in *; try discriminate E; injection E as <-; auto.
  - destruct (pfield bs kept s i_n (fun c => Some (snd c)) G I) as [E J]; [intros [[[V U] E] M] X; reflexivity|].
    unfold poca_n. rewrite ret_eq. destruct (seqA poca_ensure _ s) as [[[a|]|e] s']; cbn [fst snd pknown] in *; destruct (pcombined bs); cbn [bind] in *; try discriminate E; injection E as <-; auto.
Qed.

Definition known_q (q : pquestion) : res ians := match q with Refused => Err ValueError | Asked bs s r => pknown bs s r end.
Lemma pinteract_known ops : forall bs smooth kept s, 0 < smooth -> (forall x, kept = Some x -> 0 < x) -> pinv bs kept s -> eff_good panel_efficiency bs ->
  (forall v, In (PAdd (Ok v)) ops -> exists es, panel_efficiency v = Ok es /\ List.length es = List.length (s_poca v)) ->
  pinteract cdf lw size ops (W smooth) s = map known_q (pquestions ops bs smooth kept) /\
  Forall (fun q => match q with Refused => True | Asked bs x _ => 0 < x /\ eff_good panel_efficiency bs end) (pquestions ops bs smooth kept).
Proof.
  induction ops as [|[v|x|r] ops IH]; intros bs smooth kept s P0 K0 I G T; [split; constructor|..].
  - cbn [pinteract pquestions]. assert (add_scatters v s = given (bs ++ [v])) as -> by (destruct I as [U|[[[V U] E] N] Ec Un|[[[V U] E] N] y h Ec K H]; reflexivity).
    apply IH; [exact P0|discriminate|constructor; intros y c Q; discriminate Q| |intros w J; apply T; right; exact J].
    intros w J. apply in_app_or in J as [J|[->|[]]]; [apply G, J|apply T; left; reflexivity].
  - cbn [pinteract pquestions]. unfold set_smooth. destruct (Rltb_spec 0 x) as [H|H]; destruct (Rlt_dec 0 x) as [H'|H']; try (exfalso; lra).
    + apply IH; auto. intros w J; apply T; right; exact J.
    + cbn [map known_q]. destruct (IH bs smooth kept s) as [-> F]; auto. intros w J; apply T; right; exact J.
  - assert (T' : forall v, In (PAdd (Ok v)) ops -> exists es, panel_efficiency v = Ok es /\ List.length es = List.length (s_poca v)) by (intros w J; apply T; right; exact J).
    assert (D : r = PPred \/ r <> PPred) by (destruct r; [left; reflexivity|right; discriminate..]). destruct D as [->|D].
    + cbn [pinteract pquestions]. pose proof (pred_inv bs kept s smooth G I) as [E J]. cbv zeta in E, J. set (x := match kept with Some x => x | None => smooth end) in *.
      assert (Px : 0 < x) by (unfold x; destruct kept; auto).
      destruct (pask cdf lw size (W smooth) PPred s) as [a s']. cbn [fst snd] in *. subst a. destruct (IH bs smooth (Some x) s' P0 ltac:(intros y [= <-]; exact Px) J G T') as [-> F]. cbn [map known_q]. auto.
    + replace (pquestions (PAsk r :: ops) bs smooth kept) with (Asked bs smooth r :: pquestions ops bs smooth kept) by (destruct r; [congruence|reflexivity..]).
      cbn [pinteract]. pose proof (ask_inv bs kept s smooth r G I D) as [E J]. destruct (pask cdf lw size (W smooth) r s) as [a s']. cbn [fst snd] in *. subst a.
      destruct (IH bs smooth kept s' P0 K0 J G T') as [-> F]. cbn [map known_q]. auto.
Qed.
Lemma fresh_given bs s r : 0 < s -> eff_good panel_efficiency bs -> poca_session cdf lw size s (map PAdd bs ++ [PAsk r]) = Ok [pknown bs s r].
Proof.
  intros P G. unfold poca_session, set_smooth. destruct (Rltb_spec 0 s); [|lra]. cbn [bind]. fold (W s). f_equal.
  assert (H : forall bs s0, pinteract cdf lw size (map PAdd bs ++ [PAsk r]) (W s) s0 = pinteract cdf lw size [PAsk r] (W s) (match bs with [] => s0 | _ => given (i_batches s0 ++ bs) end)).
  { clear. intros bs. induction bs as [|b bs IH]; intros s0; [reflexivity|]. cbn [map app pinteract]. rewrite IH. unfold add_scatters. destruct bs; [reflexivity|]. cbn [i_batches]. now rewrite <- app_assoc. }
  rewrite H. replace (match bs with [] => new_inf | _ => given (i_batches new_inf ++ bs) end) with (given bs) by (destruct bs; reflexivity).
  cbn [pinteract]. assert (I : pinv bs None (given bs)) by (constructor; intros y c Q; discriminate Q).
  assert (D : r = PPred \/ r <> PPred) by (destruct r; [left; reflexivity|right; discriminate..]). destruct D as [->|D].
  - destruct (pred_inv bs None (given bs) s G I) as [E _]. destruct (pask cdf lw size (W s) PPred (given bs)). cbn [fst] in E. now subst.
  - destruct (ask_inv bs None (given bs) s r G I D) as [E _]. destruct (pask cdf lw size (W s) r (given bs)). cbn [fst] in E. now subst.
Qed.
End S.

(* --- order does not matter --- *)
Lemma xbefore_total a b : xbefore a b = false -> xbefore b a = true.
Proof. destruct a as [x| | |], b as [y| | |]; cbn; try reflexivity; try discriminate. unfold Rleb. destruct (Rle_dec x y); [discriminate|]. destruct (Rle_dec y x); [reflexivity|lra]. Qed.
Lemma xbefore_antisym a b : xbefore a b = true -> xbefore b a = true -> a = b.
Proof. destruct a as [x| | |], b as [y| | |]; cbn; try reflexivity; try discriminate. unfold Rleb. destruct (Rle_dec x y); [|discriminate]. destruct (Rle_dec y x); [|discriminate]. intros _ _. f_equal. lra. Qed.
Lemma xbefore_trans a b c : xbefore a b = true -> xbefore b c = true -> xbefore a c = true.
Proof. destruct a as [x| | |], b as [y| | |], c as [z| | |]; cbn; try reflexivity; try discriminate. unfold Rleb. destruct (Rle_dec x y); [|discriminate]. destruct (Rle_dec y z); [|discriminate]. destruct (Rle_dec x z); [reflexivity|lra]. Qed.
Lemma xinsert_comm x y l : xinsert x (xinsert y l) = xinsert y (xinsert x l).
Proof.
  induction l as [|z l IH].
  - cbn. destruct (xbefore x y) eqn:A, (xbefore y x) eqn:B; try reflexivity; [now rewrite (xbefore_antisym x y A B)|]. apply xbefore_total in A. congruence.
  - cbn [xinsert]. destruct (xbefore y z) eqn:Yz, (xbefore x z) eqn:Xz; cbn [xinsert]; rewrite ?Yz, ?Xz.
    + destruct (xbefore x y) eqn:A, (xbefore y x) eqn:B; rewrite ?Yz, ?Xz; try reflexivity; [now rewrite (xbefore_antisym x y A B)|]. apply xbefore_total in A. congruence.
    + destruct (xbefore x y) eqn:A; [|reflexivity]. rewrite (xbefore_trans x y z A Yz) in Xz. discriminate.
    + destruct (xbefore y x) eqn:A; [|reflexivity]. rewrite (xbefore_trans y x z A Xz) in Yz. discriminate.
    + now rewrite IH.
Qed.
Lemma xsort_perm l l' : Permutation l l' -> xsort l = xsort l'.
Proof. induction 1 as [|a l l' P IH|a b l|l l' l'' P1 IH1 P2 IH2]; [reflexivity| |apply xinsert_comm|congruence]. change (xinsert a (xsort l) = xinsert a (xsort l')). now rewrite IH. Qed.
Lemma xkth_perm k l l' : Permutation l l' -> xkth k l = xkth k l'.
Proof. intros P. unfold xkth. now rewrite (Permutation_length P), (xsort_perm l l' P). Qed.
Lemma xtotal_perm l l' : Permutation l l' -> xtotal l = xtotal l'.
Proof. induction 1; cbn [xtotal fold_right]; try congruence; [unfold xtotal in IHPermutation; now rewrite IHPermutation|apply xadd_swap]. Qed.

Section P.
Variables (cdf : R -> R -> R -> R) (lw : R * R) (size : R) (gw : list R) (A : Type) (S : A -> seen) (E : A -> xr).
Definition sw_of (a : A) : R := match sig_weight cdf lw size gw (S a) with Ok s => s | Err _ => 0 end.
Definition sw_bad (a : A) : bool := match sig_weight cdf lw size gw (S a) with Ok s => false | Err _ => true end.
Lemma sigs_cases l : mapM (sig_weight cdf lw size gw) (map S l) = if existsb sw_bad l then Err ValueError else Ok (map sw_of l).
Proof.
  induction l as [|a l IH]; [reflexivity|]. cbn [map mapM existsb]. rewrite IH.
  assert (H : match sig_weight cdf lw size gw (S a) with Ok s => sw_bad a = false /\ sw_of a = s | Err e => sw_bad a = true /\ e = ValueError end).
  { unfold sw_bad, sw_of. destruct (sig_weight cdf lw size gw (S a)) as [s|e] eqn:Es; [auto|]. split; [reflexivity|]. unfold sig_weight in Es. destruct (sn_unc (S a)) as [[ux uy] uz]. destruct (_ && _)%bool; congruence. }
  destruct (sig_weight cdf lw size gw (S a)) as [s|e]; destruct H as [-> <-] || destruct H as [-> ->]; cbn [bind orb]; [|reflexivity]. destruct (existsb sw_bad l); reflexivity.
Qed.
Lemma existsb_perm (f : A -> bool) l l' : Permutation l l' -> existsb f l = existsb f l'.
Proof. induction 1 as [|a l l' P IH|a b l|l l' l'' P1 IH1 P2 IH2]; cbn; [reflexivity|now rewrite IH|destruct (f a), (f b); reflexivity|congruence]. Qed.
Lemma height_map l : height_with cdf lw size gw (map E l) (map S l) =
  if existsb sw_bad l then Err ValueError else
  lo <- xkth (quantile_index 0.15865 (length l)) (map (fun a => Fin (snd (sn_unc (S a)))) l) ;;
  hi <- xkth (quantile_index 0.84135 (length l)) (map (fun a => Fin (snd (sn_unc (S a)))) l) ;;
  let wgt a := let u := xclip lo hi (Fin (snd (sn_unc (S a)))) in xdiv (xmul (Fin (sw_of a)) (E a)) (xmul u u) in
  top <- xkth (quantile_index 0.84135 (length l)) (map wgt l) ;;
  Ok (xdiv (xtotal (map (fun a => xmul (xclip (Fin 0) top (wgt a)) (Fin (snd (sn_poca (S a))))) l)) (xtotal (map (fun a => xclip (Fin 0) top (wgt a)) l))).
Proof.
  unfold height_with. rewrite sigs_cases. destruct (existsb sw_bad l); [reflexivity|]. cbn [bind]. rewrite !map_map, map_length.
  destruct (xkth _ _) as [lo|]; [|reflexivity]. cbn [bind]. destruct (xkth _ _) as [hi|]; [|reflexivity]. cbn [bind]. cbv zeta.
  rewrite GenP.combine_map2, !map_map, map2_same. cbn [fst snd]. destruct (xkth _ _) as [top|]; [|reflexivity]. cbn [bind]. rewrite map_map, map2_same. reflexivity.
Qed.
Lemma height_perm l l' : Permutation l l' -> height_with cdf lw size gw (map E l) (map S l) = height_with cdf lw size gw (map E l') (map S l').
Proof.
  intros P. rewrite !height_map, (existsb_perm sw_bad l l' P). destruct (existsb sw_bad l'); [reflexivity|]. rewrite <- (Permutation_length P).
  rewrite !(xkth_perm _ _ _ (Permutation_map (fun a => Fin (snd (sn_unc (S a)))) P)).
  destruct (xkth _ _) as [lo|]; [|reflexivity]. cbn [bind]. destruct (xkth _ _) as [hi|]; [|reflexivity]. cbn [bind]. cbv zeta.
  set (wgt := fun a => xdiv _ _). rewrite (xkth_perm _ _ _ (Permutation_map wgt P)). destruct (xkth _ _) as [top|]; [|reflexivity]. cbn [bind].
  do 2 f_equal; apply xtotal_perm, Permutation_map, P.
Qed.
End P.

(* --- the prediction from the muons --- *)
Lemma poca_mask_view bss : poca_mask (map view bss) = Ok (map poca_numbers (concat bss)).
Proof.
  unfold poca_mask, not_any. cbv zeta. rewrite (flat_view s_poca (fun m => t3 (k_poca m))), (flat_view s_poca_unc (fun m => t3 (k_poca_u m))) by reflexivity.
  rewrite !map_map. repeat (rewrite mask_mul_map; cbn [bind]). f_equal. apply map_ext. intro k. unfold poca_numbers. rewrite <- !fin_row. cbn [andb]. now rewrite !andb_assoc.
Qed.
Lemma seen_kept k : poca_numbers k = true -> seen_of (t3 (k_poca k)) (t3 (k_poca_u k)) = Ok (Seen (nums (k_poca k)) (nums (k_poca_u k)) 0).
Proof.
  unfold poca_numbers, seen_of. destruct (k_poca k) as [[x y] z], (k_poca_u k) as [[ux uy] uz]. cbn. intros H.
  destruct x, y, z; cbn in H; try discriminate; destruct ux, uy, uz; cbn in H; try discriminate. reflexivity.
Qed.
Lemma seens_kept (l : list smuon) : Forall (fun k => poca_numbers k = true) l ->
  mapM (fun vu => seen_of (fst vu) (snd vu)) (combine (map (fun k => t3 (k_poca k)) l) (map (fun k => t3 (k_poca_u k)) l)) = Ok (map (fun k => Seen (nums (k_poca k)) (nums (k_poca_u k)) 0) l).
Proof. induction 1 as [|k l H F IH]; [reflexivity|]. cbn [map combine mapM fst snd]. rewrite seen_kept by auto. cbn [bind]. rewrite IH. reflexivity. Qed.
Lemma pcombined_view (e : smuon -> xr) bss : bss <> [] -> (forall ms, In ms bss -> panel_efficiency (view ms) = Ok (map e ms)) ->
  let kept := filter poca_numbers (concat bss) in
  pcombined (map (fun ms => Ok (view ms)) bss) = Ok (map (fun k => t3 (k_poca k)) kept, map (fun k => t3 (k_poca_u k)) kept, map e kept, List.length kept).
Proof.
  intros N H kept. unfold pcombined. destruct (map (fun ms => Ok (view ms)) bss) as [|b0 bs0] eqn:E; [destruct bss; [congruence|discriminate]|].
  rewrite <- E. clear E b0 bs0. rewrite read_views. cbn [bind]. rewrite poca_mask_view. cbn [bind]. destruct (effs_view panel_efficiency e bss H) as (es & -> & C). cbn [bind]. rewrite C.
  rewrite (flat_view s_poca (fun m => t3 (k_poca m))), (flat_view s_poca_unc (fun m => t3 (k_poca_u m))) by reflexivity.
  rewrite !select_map_filter. fold kept. now rewrite map_length.
Qed.
Lemma views_good (e : smuon -> xr) bss : (forall ms, In ms bss -> panel_efficiency (view ms) = Ok (map e ms)) -> eff_good panel_efficiency (map (fun ms => Ok (view ms)) bss).
Proof. intros H v I. apply in_map_iff in I as (ms & [= <-] & I). exists (map e ms). split; [now apply H|]. cbn [view s_poca]. now rewrite !map_length. Qed.
Lemma session_value cdf lw size s (e : smuon -> xr) bss : 0 < s -> bss <> [] -> (forall ms, In ms bss -> panel_efficiency (view ms) = Ok (map e ms)) ->
  let kept := filter poca_numbers (concat bss) in
  poca_session cdf lw size s (padds bss ++ [PAsk PPred]) =
  Ok [h <- height_with cdf lw size (W lw size s) (map e kept) (map (fun k => Seen (nums (k_poca k)) (nums (k_poca_u k)) 0) kept) ;; Ok (AVec [h])].
Proof.
  intros P N H kept. unfold padds. rewrite <- (map_map (fun ms => Ok (view ms)) PAdd). rewrite fresh_given by (auto; apply (views_good e); exact H). do 2 f_equal.
  unfold pknown. destruct (map (fun ms => Ok (view ms)) bss) as [|b0 bs0] eqn:E; [destruct bss; [congruence|discriminate]|]. rewrite <- E. clear E b0 bs0.
  rewrite (pcombined_view e) by auto. cbn [bind]. fold kept. unfold pheight. rewrite map_length, Nat.eqb_refl. rewrite seens_kept; [reflexivity|].
  apply Forall_forall. intros k I. now apply filter_In in I.
Qed.
Lemma effs_panels ms (a b : smuon -> list R) : (forall k, In k ms -> panels_of k (a k) (b k)) -> panel_efficiency (view ms) = Ok (map (fun k => Fin (prob_two (a k) * prob_two (b k))) ms).
Proof. intros H. apply panel_eff_view. intros k I. destruct (H k I) as (A & B & C & D & _). auto. Qed.
