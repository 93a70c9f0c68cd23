(* What a batch of muons is meant to be: a list of separate muons, each with its own log of hits.
   Nothing here uses masks, columns or the model's operations; only the record of the six coordinates
   and the number type are shared with the model. *)
From Coq Require Import Permutation.
From Verif Require Import Model.MuonBatch Spec.ListSpec.
Open Scope R_scope.
Open Scope list_scope.

Fixpoint mapi {A B} (f : nat -> A -> B) (l : list A) : list B :=
  match l with [] => [] | a :: l' => f 0%nat a :: mapi (fun i => f (S i)) l' end.

Section Spec.
Variable H : Type.

(* one muon: its coordinates and every hit recorded for it (detector position, variable, value), oldest first *)
Record obj := Obj { o_mu : muon; o_log : list (string * string * H) }.

Record sstate := SState {
  s_live : list obj;                    (* muons still in the batch, in order *)
  s_gone : list muon;                   (* muons taken out, in the order they were taken out *)
  s_keys : list (string * string);      (* (position, variable) pairs for which hits were recorded *)
  s_hist : list (list (xr * xr * xr)) }.

(* an argument common to all muons, or one value per muon *)
Inductive sarg := SAll (v : xr) | SEach (vs : list xr).
Inductive cmd :=
| CMove (dx dy dz : option sarg) (who : option (list bool))
| CTurn (dth dph : option sarg) (who : option (list bool))
| CTurnXY (dtx dty : option sarg) (who : option (list bool))
| CGoDz (dz : sarg) (who : option (list bool))
| CGoD (d : sarg) (who : option (list bool))
| CKeep (keep : list bool)
| CDropUpward
| CSnapshot
| CRecord (hits : list (string * list H)) (pos : string).

(* value for muon number i *)
Definition at_i (a : sarg) (i : nat) : xr := match a with SAll v => v | SEach vs => nth i vs NaN end.
Definition at_io (a : option sarg) (i : nat) : option xr :=
  match a with None => None | Some a => Some (at_i a i) end.
Definition sel_i (w : option (list bool)) (i : nat) : bool :=
  match w with None => true | Some bs => nth i bs false end.

(* ---- the operations on one muon ---- *)
Definition plus_opt (v : xr) (d : option xr) : xr := match d with None => v | Some d => xadd v d end.
Definition move1 (dx dy dz : option xr) (u : muon) : muon :=
  Mu (plus_opt (mx u) dx) (plus_opt (my u) dy) (plus_opt (mz u) dz) (mp u) (mth u) (mph u).
Definition two_pi := 2 * PI.
Definition turn1 (dth dph : option xr) (u : muon) : muon :=
  let ph := match dph with None => mph u | Some d => xmod (xadd (mph u) d) two_pi end in
  match dth with
  | None => Mu (mx u) (my u) (mz u) (mp u) (mth u) ph
  | Some d =>
      let t := xmod (xadd (mth u) d) two_pi in
      if xlt (Fin PI) t
      then Mu (mx u) (my u) (mz u) (mp u) (xsub (Fin two_pi) t) (xmod (xadd ph (Fin PI)) two_pi)
      else Mu (mx u) (my u) (mz u) (mp u) t ph
  end.
Definition turn_xy1 (dtx dty : option xr) (u : muon) : muon :=
  let tx := plus_opt (theta_x_from_theta_phi1 (mth u) (mph u)) dtx in
  let ty := plus_opt (theta_y_from_theta_phi1 (mth u) (mph u)) dty in
  Mu (mx u) (my u) (mz u) (mp u) (theta_from_theta_xy1 tx ty) (phi_from_theta_xy1 tx ty).
Definition go_dz1 (dz : xr) (u : muon) : muon :=
  let rst := xmul (xdiv dz (xcos (mth u))) (xsin (mth u)) in
  Mu (xadd (mx u) (xmul rst (xcos (mph u)))) (xadd (my u) (xmul rst (xsin (mph u))))
     (xsub (mz u) dz) (mp u) (mth u) (mph u).
Definition go_d1 (d : xr) (u : muon) : muon :=
  let rst := xmul d (xsin (mth u)) in
  Mu (xadd (mx u) (xmul rst (xcos (mph u)))) (xadd (my u) (xmul rst (xsin (mph u))))
     (xsub (mz u) (xmul d (xcos (mth u)))) (mp u) (mth u) (mph u).
(* a muon is going down: theta < pi/2, and both angles are numbers *)
Definition goes_down (u : muon) : bool :=
  match mth u, mph u with
  | _, NaN => false
  | Fin t, _ => Rltb t (PI / 2)
  | NInf, _ => true
  | _, _ => false
  end.

(* the same, on the object; a muon that is not selected is left alone *)
Definition on_mu (f : muon -> muon) (o : obj) : obj := Obj (f (o_mu o)) (o_log o).
Definition each (w : option (list bool)) (f : nat -> muon -> muon) (l : list obj) : list obj :=
  mapi (fun i o => if sel_i w i then on_mu (f i) o else o) l.

(* keep the muons numbered i with keep i; the others go to the list of removed muons *)
Fixpoint keep_where (keep : nat -> obj -> bool) (l : list obj) : list obj :=
  match l with
  | [] => []
  | o :: l' => if keep 0%nat o then o :: keep_where (fun i => keep (S i)) l'
               else keep_where (fun i => keep (S i)) l'
  end.
Definition retain (keep : nat -> obj -> bool) (s : sstate) : sstate :=
  SState (keep_where keep (s_live s))
         (s_gone s ++ map o_mu (keep_where (fun i o => negb (keep i o)) (s_live s)))
         (s_keys s) (s_hist s).
Definition with_live (s : sstate) (l : list obj) : sstate := SState l (s_gone s) (s_keys s) (s_hist s).
Definition drop_upward (s : sstate) : sstate := retain (fun _ o => goes_down (o_mu o)) s.

Definition record1 (hits : list (string * list H)) (pos : string) (i : nat) (o : obj) : obj :=
  Obj (o_mu o)
      (o_log o ++ flat_map (fun kv => match nth_error (snd kv) i with
                                      | Some h => [(pos, fst kv, h)] | None => [] end) hits).

(* one value per muon is required *)
Definition arg_ok (n : nat) (a : option sarg) : bool :=
  match a with Some (SEach vs) => Nat.eqb (List.length vs) n | _ => true end.
Definition who_ok (n : nat) (w : option (list bool)) : bool :=
  match w with Some bs => Nat.eqb (List.length bs) n | None => true end.

(* None: the command does not give exactly one value per muon of the batch *)
Definition spec_step (s : sstate) (c : cmd) : option sstate :=
  let n := List.length (s_live s) in
  match c with
  | CMove dx dy dz w =>
      if arg_ok n dx && arg_ok n dy && arg_ok n dz && who_ok n w
      then Some (with_live s (each w (fun i => move1 (at_io dx i) (at_io dy i) (at_io dz i)) (s_live s)))
      else None
  | CTurn dth dph w =>
      if arg_ok n dth && arg_ok n dph && who_ok n w
      then Some (drop_upward (with_live s (each w (fun i => turn1 (at_io dth i) (at_io dph i)) (s_live s))))
      else None
  | CTurnXY dtx dty w =>
      if arg_ok n dtx && arg_ok n dty && who_ok n w
      then Some (drop_upward (with_live s (each w (fun i => turn_xy1 (at_io dtx i) (at_io dty i)) (s_live s))))
      else None
  | CGoDz dz w =>
      if arg_ok n (Some dz) && who_ok n w
      then Some (with_live s (each w (fun i => go_dz1 (at_i dz i)) (s_live s))) else None
  | CGoD d w =>
      if arg_ok n (Some d) && who_ok n w
      then Some (with_live s (each w (fun i => go_d1 (at_i d i)) (s_live s))) else None
  | CKeep keep =>
      if Nat.eqb (List.length keep) n then Some (retain (fun i _ => nth i keep false) s) else None
  | CDropUpward => Some (drop_upward s)
  | CSnapshot =>
      Some (SState (s_live s) (s_gone s) (s_keys s)
              (s_hist s ++ [map (fun o => (mx (o_mu o), my (o_mu o), mz (o_mu o))) (s_live s)]))
  | CRecord hits pos =>
      if forallb (fun kv => Nat.eqb (List.length (snd kv)) n) hits
      then Some (SState (mapi (record1 hits pos) (s_live s)) (s_gone s)
                   (s_keys s ++ map (fun kv => (pos, fst kv)) hits) (s_hist s))
      else None
  end.

Fixpoint spec_run (cs : list cmd) (s : sstate) : option sstate :=
  match cs with
  | [] => Some s
  | c :: cs' => match spec_step s c with Some s' => spec_run cs' s' | None => None end
  end.

Definition spec_init (us : list muon) : sstate := SState (map (fun u => Obj u []) us) [] [] [].

(* the hits of one muon for one detector position and variable, oldest first *)
Definition hits_for (pos var : string) (o : obj) : list H :=
  flat_map (fun e => let '(p, v, h) := e in if String.eqb p pos && String.eqb v var then [h] else []) (o_log o).

(* The call that issues a command: the implementation takes the values of the selected muons only. *)
Definition call_arg (w : option (list bool)) (a : sarg) : arg :=
  match a, w with
  | SAll v, _ => Sc v
  | SEach vs, None => Vec vs
  | SEach vs, Some bs => Vec (select bs vs)
  end.
Definition call_argo (w : option (list bool)) (a : option sarg) : option arg :=
  match a with None => None | Some a => Some (call_arg w a) end.
Definition call (c : cmd) : op H :=
  match c with
  | CMove dx dy dz w => OScatterXYZ (call_argo w dx) (call_argo w dy) (call_argo w dz) w
  | CTurn dth dph w => OScatterThPh (call_argo w dth) (call_argo w dph) w
  | CTurnXY dtx dty w => OScatterThXY (call_argo w dtx) (call_argo w dty) w
  | CGoDz dz w => OPropDz (call_arg w dz) w
  | CGoD d w => OPropD (call_arg w d) w
  | CKeep keep => OFilter keep
  | CDropUpward => ORemoveUp
  | CSnapshot => OSnapshot
  | CRecord hits pos => OAppend hits pos
  end.

End Spec.

Arguments Obj {H}. Arguments o_mu {H}. Arguments o_log {H}.
Arguments SState {H}. Arguments s_live {H}. Arguments s_gone {H}. Arguments s_keys {H}. Arguments s_hist {H}.
Arguments CMove {H}. Arguments CTurn {H}. Arguments CTurnXY {H}. Arguments CGoDz {H}. Arguments CGoD {H}.
Arguments CKeep {H}. Arguments CDropUpward {H}. Arguments CSnapshot {H}. Arguments CRecord {H}.
Arguments spec_step {H}. Arguments spec_run {H}. Arguments spec_init {H}. Arguments hits_for {H}. Arguments call {H}.
Arguments on_mu {H}. Arguments each {H}. Arguments keep_where {H}. Arguments retain {H}. Arguments with_live {H}.
Arguments drop_upward {H}. Arguments record1 {H}.

(* reading a nested dictionary *)
Fixpoint assoc {V} (k : string) (d : list (string * V)) : option V :=
  match d with [] => None | (k', v) :: d' => if String.eqb k k' then Some v else assoc k d' end.
Definition assoc2 {V} (p v : string) (d : list (string * list (string * V))) : option V :=
  match assoc p d with Some d' => assoc v d' | None => None end.

Definition in_box (low high : option (xr * xr)) (u : muon) : bool :=
  match low with Some (x, y) => xle x (mx u) && xle y (my u) | None => xle NInf (mx u) && xle NInf (my u) end
  && match high with Some (x, y) => xlt (mx u) x && xlt (my u) y | None => xlt (mx u) PInf && xlt (my u) PInf end.

(* every recorded hit tensor has one row per muon *)
Definition aligned {H} (n : nat) (d : hits_dict H) : Prop :=
  forall p vs v ts t, In (p, vs) d -> In (v, ts) vs -> In t ts -> List.length t = n.

(* the muons whose hits are asked for by get_hits: all of them when no bound is given *)
Definition asked {H} (low high : option (xr * xr)) (l : list (obj H)) : list (obj H) :=
  match low, high with None, None => l | _, _ => filter (fun o => in_box low high (o_mu o)) l end.

(* the muon described by one row [x,y,p,theta,phi] of the constructor argument, starting at height z *)
Definition start_at (z : xr) (r : row5) : muon := let '(x, y, p, th, ph) := r in Mu x y z p th ph.

(* the record of removed muons, empty when nothing was ever removed *)
Definition removed_of {H} (b : batch H) : list muon := match b_removed b with None => [] | Some r => r end.

(* No muon is lost or duplicated from b to b'.  Muons are followed by their momentum, which nothing changes. *)
Definition conserved {H} (b b' : batch H) : Prop :=
  Permutation (map mp (b_muons b') ++ map mp (removed_of b')) (map mp (b_muons b) ++ map mp (removed_of b))
  /\ subseq (map mp (b_muons b')) (map mp (b_muons b))
  /\ exists extra, removed_of b' = removed_of b ++ extra.
