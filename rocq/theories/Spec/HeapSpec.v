(* Batches as separate values: an operation on batch i changes batch i and nothing else. *)
From Verif Require Import Model.MuonHeap.
Open Scope list_scope.

Fixpoint replace {A} (i : nat) (a : A) (l : list A) : list A :=
  match l, i with [], _ => [] | _ :: l', O => a :: l' | x :: l', S j => x :: replace j a l' end.

Definition sep_step {H} (bs : list (batch H)) (o : wop H) : res (list (batch H)) :=
  match o with
  | WNew rows z => b <- new_batch rows z ;; Ok (bs ++ [b])
  | WCopy i => match nth_error bs i with
               | Some b => Ok (bs ++ [Batch (b_muons b) None [] []])
               | None => Err IndexError
               end
  | WOp i p => match nth_error bs i with
               | Some b => b' <- exec b p ;; Ok (replace i b' bs)
               | None => Err IndexError
               end
  end.
Definition sep_run {H} (ops : list (wop H)) (bs : list (batch H)) : res (list (batch H)) := foldM sep_step ops bs.
