(* Small list notions used in theorem statements. *)
From Verif Require Import Base.Res.

(* l is obtained from l' by deleting elements: the order of the remaining ones is unchanged *)
Inductive subseq {A} : list A -> list A -> Prop :=
| sub_nil : subseq [] []
| sub_keep a l l' : subseq l l' -> subseq (a :: l) (a :: l')
| sub_drop a l l' : subseq l l' -> subseq l (a :: l').
