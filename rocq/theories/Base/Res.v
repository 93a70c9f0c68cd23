(* Results with Python exceptions as values. *)
From Coq Require Export String.
From Coq Require Export List Bool Arith Lia.
Export ListNotations.
Open Scope list_scope.

(* The Python / torch exceptions that the modelled code can raise. *)
Inductive exn :=
| ValueError | IndexError | KeyError | TypeErr | AttributeError | NotImplementedError
| RuntimeError            (* torch: shapes disagree *)
| AssertionError | FileNotFoundError
| ZeroDivisionError
| OverflowError           (* numpy: the range of random numbers is not finite *)
| LinAlgError             (* torch: singular matrix *)
| RankChanged             (* no exception in Python: a tensor got an unexpected number of axes; behaviour from there on is not modelled *)
| UserExn (n : nat).      (* an exception raised by user-supplied code *)

Inductive res (A : Type) :=
| Ok (a : A)
| Err (e : exn).
Arguments Ok {A} a.
Arguments Err {A} e.

Definition bind {A B} (r : res A) (f : A -> res B) : res B :=
  match r with Ok a => f a | Err e => Err e end.
Notation "x <- e1 ;; e2" := (bind e1 (fun x => e2)) (at level 61, e1 at next level, right associativity).
Notation "' pat <- e1 ;; e2" := (bind e1 (fun x => match x with pat => e2 end))
  (at level 61, pat pattern, e1 at next level, right associativity).

Definition rmap {A B} (f : A -> B) (r : res A) : res B :=
  match r with Ok a => Ok (f a) | Err e => Err e end.

Lemma bind_ok {A B} (r : res A) (f : A -> res B) b :
  bind r f = Ok b <-> exists a, r = Ok a /\ f a = Ok b.
Proof.
  split.
  - destruct r as [a|e]; simpl; intro H; [exists a; auto | discriminate].
  - intros [a [-> H]]; exact H.
Qed.

(* fold of a fallible step *)
Fixpoint foldM {S O} (step : S -> O -> res S) (ops : list O) (s : S) : res S :=
  match ops with
  | [] => Ok s
  | o :: ops' => s' <- step s o ;; foldM step ops' s'
  end.

Fixpoint mapM {A B} (f : A -> res B) (l : list A) : res (list B) :=
  match l with
  | [] => Ok []
  | a :: l' => b <- f a ;; bs <- mapM f l' ;; Ok (b :: bs)
  end.
