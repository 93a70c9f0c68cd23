(* What a callback sees of a fit, and callbacks as functions of it. *)
From Verif Require Export Model.Fit.
Open Scope list_scope.

(* the parts of fit_params that the modelled callbacks read (volume_wrapper.py:56-98), and S: their own attributes and what they act on *)
Record view (S : Type) := View {
  vw_mode : option mode; vw_epoch : nat; vw_skip : bool; vw_n_epochs : option nat; vw_bs : option nat; vw_st : S }.
Arguments View {S}. Arguments vw_mode {S}. Arguments vw_epoch {S}. Arguments vw_skip {S}. Arguments vw_n_epochs {S}. Arguments vw_bs {S}. Arguments vw_st {S}.
(* a callback's method: the new skip_opt_step and the new S, or it raises *)
Definition reaction (S : Type) : Type := event -> view S -> res (bool * S).
Definition same_as {S} (v : view S) : res (bool * S) := Ok (vw_skip v, vw_st v).
Definition in_train {S} (v : view S) : bool := is_train (vw_mode v).
