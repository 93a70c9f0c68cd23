(* Medians, and what a warm-up callback sees in its window. *)
From Coq Require Import String Permutation Sorted.
From Verif Require Import Base.RUtil Model.Fit Model.Warmup Spec.FitSpec Spec.ReplaySpec Spec.WarmupSpec Base.XR.
Open Scope list_scope.

(* the element in the middle, or the mean of the two in the middle *)
Definition middle (m : xr) (s : list xr) : Prop :=
  (exists a b, s = a ++ m :: b /\ length a = length b) \/
  (exists a x y b, s = a ++ x :: y :: b /\ length a = length b /\ m = xdiv (xadd x y) (Fin 2)).
Definition is_median (m : xr) (l : list xr) : Prop :=
  exists s, Permutation l s /\ StronglySorted (fun x y => xle x y = true) s /\ middle m s.
Definition no_nan (l : list xr) : Prop := ~ In NaN l.
(* what is set from the numbers l: their median, or NaN if there are none or one of them is NaN *)
Definition median_of (m : xr) (l : list xr) : Prop :=
  (l <> [] -> no_nan l -> is_median m l) /\ (l = [] \/ In NaN l -> m = NaN).

(* the trace of a fit up to the end of its i-th epoch, or the whole of it *)
Definition first_epochs {I P} (c : cfg) (xs : list (epoch I P)) (i : nat) : list (item I P) :=
  on c SetWrapper ++ on c TrainBegin ++ flat_map (doc_epoch c) (firstn i xs).
Definition epochs_done {I P} (c : cfg) (xs : list (epoch I P)) (i : nat) (t : list (item I P)) : Prop :=
  (i <= length xs)%nat /\ t = first_epochs c xs i \/ i = length xs /\ t = doc_fit c xs.
(* of one entry for each epoch, those of the window (from epoch s, len epochs) among the first i *)
Definition window {A} (s len i : nat) (l : list A) : list A := firstn (Nat.min len (i - s)) (skipn s l).
(* the errors of the volumes of one epoch that have a loss: in training and in validation *)
Definition errors_of {I P} (x : epoch I P) (d : list xr * list xr) : Prop :=
  length (fst d) = length (losses (scan_vols (ep_train x))) /\
  length (snd d) = match ep_valid x with Some v => length (losses (scan_vols v)) | None => 0%nat end.
Definition all_errors (ds : list (list xr * list xr)) : list xr := flat_map (fun d => fst d ++ snd d) ds.
Definition train_errors (ds : list (list xr * list xr)) : list xr := flat_map fst ds.
(* the coefficient if nobody sets it: the one given, or else the first error *)
Definition or_first (k : option xr) (l : list xr) : option xr := match k with Some x => Some x | None => hd_error l end.

(* the value of a key *)
Definition maps_to {A} (d : list (string * A)) (k : string) (a : A) : Prop := In (k, a) d /\ NoDup (map fst d).
(* every parameter of the optimiser k has a gradient in g *)
Definition graded (k : string) (g : list (string * list (option (list xr)))) : Prop :=
  exists ps, maps_to g k ps /\ ~ In None ps.
(* the absolute values of the gradients of the parameters of the optimiser k, without NaN *)
Definition entries (p : option (list xr)) : list xr := match p with Some l => l | None => [] end.
Definition sizes (k : string) (gs : list (list (string * list (option (list xr))))) : list xr :=
  filter (fun x => negb (xisnan x))
    (map xabs (concat (map entries (concat (map snd (filter (fun kp => String.eqb (fst kp) k) (concat gs))))))).
(* one gradient for each update of an epoch *)
Definition grads_of {I P} (x : epoch I P) (gs : list (list (string * list (option (list xr))))) : Prop :=
  length gs = length (sc_batches (ep_train x)).
Definition at_least_half (p : xr -> bool) (l : list xr) : Prop := (length l <= 2 * length (filter p l))%nat.
