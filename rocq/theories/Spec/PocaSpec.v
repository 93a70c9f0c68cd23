(* What the PoCA-based inferrer of the fill level is meant to do. *)
From Verif Require Import Model.Ladle Model.PocaZ Spec.InferSpec.
Open Scope R_scope.
Open Scope list_scope.

(* the muons that count: PoCA and its uncertainty are numbers *)
Definition poca_numbers (k : smuon) : bool := forallb xisfin (t3 (k_poca k)) && forallb xisfin (t3 (k_poca_u k)).
Definition nums (p : xr * xr * xr) : R * R * R := let '(x, y, z) := p in (num x, num y, num z).
(* such a muon, with its efficiency: the probability that two panels above and two below fire *)
Definition as_seen (a b : smuon -> list R) (k : smuon) : seen := Seen (nums (k_poca k)) (nums (k_poca_u k)) (prob_two (a k) * prob_two (b k)).

(* what was asked: a value of smooth that is not positive, or a question to the batches so far.  The prediction is kept until the next batch:
   it is the one for the value of smooth when it was first asked for. *)
Inductive pquestion := Refused | Asked (bs : list (res sview)) (smooth : R) (r : pread).
Fixpoint pquestions (ops : list pop) (bs : list (res sview)) (smooth : R) (kept : option R) : list pquestion :=
  match ops with
  | [] => []
  | PAdd v :: ops => pquestions ops (bs ++ [v]) smooth None
  | PSmooth x :: ops => if Rlt_dec 0 x then pquestions ops bs x kept else Refused :: pquestions ops bs smooth kept
  | PAsk PPred :: ops => let s := match kept with Some s => s | None => smooth end in Asked bs s PPred :: pquestions ops bs smooth (Some s)
  | PAsk r :: ops => Asked bs smooth r :: pquestions ops bs smooth kept
  end.
(* an answer as a new inferrer gives it that was made with this value of smooth, given these batches and asked only this *)
Definition fresh_answer (cdf : R -> R -> R -> R) (lw : R * R) (size : R) (q : pquestion) (a : res ians) : Prop :=
  match q with
  | Refused => a = Err ValueError
  | Asked bs s r => poca_session cdf lw size s (map PAdd bs ++ [PAsk r]) = Ok [a]
  end.
(* batches of muons *)
Definition padds (bss : list (list smuon)) : list pop := map (fun ms => PAdd (Ok (view ms))) bss.
