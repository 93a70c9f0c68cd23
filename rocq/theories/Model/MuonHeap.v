(* Several MuonBatch objects in one memory (muon_batch.py).  The (N,6) tensor _muons of an object is a storage cell;
   masked assignments write into that cell, boolean indexing (filter_muons:276) binds _muons to a new cell,
   and the constructor (F.pad, muon_batch.py:76) allocates a new cell.
   Hit tensors and the numpy record of removed muons are never written in place by MuonBatch, so they are values. *)
From Verif Require Export Model.MuonBatch.
Open Scope list_scope.

Section Heap.
Variable H : Type.

Record bobj := BObj {
  o_addr : nat;
  o_removed : option (list muon);
  o_hits : hits_dict H;
  o_hist : list (list (xr * xr * xr)) }.
Record world := World { w_cells : list (list muon); w_objs : list bobj }.

Definition load (w : world) (o : bobj) : batch H :=
  Batch (nth (o_addr o) (w_cells w) []) (o_removed o) (o_hits o) (o_hist o).

Fixpoint set_nth {A} (n : nat) (a : A) (l : list A) : list A :=
  match l, n with
  | [], _ => []
  | _ :: l', O => a :: l'
  | x :: l', S n' => x :: set_nth n' a l'
  end.

(* The in-place part of an operation: the new content of the cell before any filtering. *)
Definition inplace (b : batch H) (o : op H) : res (list muon) :=
  let m x := mask_or_ones (List.length (b_muons b)) x in
  match o with
  | OScatterXYZ dx dy dz x =>
      ms <- add_opt cx (m x) dx (b_muons b) ;; ms <- add_opt cy (m x) dy ms ;; add_opt cz (m x) dz ms
  | OScatterThPh dth dph x => ms <- dphi_part (m x) dph (b_muons b) ;; dtheta_part (m x) dth ms
  | OScatterThXY dtx dty x => dtheta_xy_part (m x) dtx dty (b_muons b)
  | OPropDz dz x => propagate_dz_ms (m x) dz (b_muons b)
  | OPropD d x => propagate_d_ms (m x) d (b_muons b)
  | _ => Ok (b_muons b)
  end.
(* What the operation does after the in-place writes (filtering, recording): on values. *)
Definition after (b : batch H) (o : op H) : res (batch H) :=
  match o with
  | OScatterThPh _ _ _ | OScatterThXY _ _ _ | ORemoveUp => remove_upwards_muons b
  | OFilter keep => filter_muons keep b
  | OSnapshot => Ok (snapshot_xyz b)
  | OAppend hits pos => Ok (append_hits hits pos b)
  | _ => Ok b
  end.
(* Whether the operation rebinds _muons to a new tensor (filter_muons:268-276, only when something is removed) *)
Definition rebinds (b : batch H) (o : op H) : bool :=
  match o with
  | OScatterThPh _ _ _ | OScatterThXY _ _ _ | ORemoveUp =>
      Nat.ltb (count_true (map keep_down (b_muons b))) (List.length (b_muons b))
  | OFilter keep => Nat.ltb (count_true keep) (List.length (b_muons b))
  | _ => false
  end.

Inductive wop :=
| WNew (rows : list row5) (z : arg)        (* MuonBatch(...) *)
| WCopy (i : nat)                          (* batch i .copy() *)
| WOp (i : nat) (o : op H).                (* an operation on batch i *)

Definition alloc_obj (w : world) (b : batch H) : world :=
  World (w_cells w ++ [b_muons b])
        (w_objs w ++ [BObj (List.length (w_cells w)) (b_removed b) (b_hits b) (b_hist b)]).

Definition wstep (w : world) (o : wop) : res world :=
  match o with
  | WNew rows z => b <- new_batch rows z ;; Ok (alloc_obj w b)
  | WCopy i =>
      match nth_error (w_objs w) i with
      | None => Err IndexError
      | Some ob => b <- copy (load w ob) ;; Ok (alloc_obj w b)
      end
  | WOp i p =>
      match nth_error (w_objs w) i with
      | None => Err IndexError
      | Some ob =>
          ms <- inplace (load w ob) p ;;
          let cells := set_nth (o_addr ob) ms (w_cells w) in             (* write through the views *)
          let b1 := with_muons (load w ob) ms in
          b2 <- after b1 p ;;
          if rebinds b1 p then
            Ok (World (cells ++ [b_muons b2])
                      (set_nth i (BObj (List.length cells) (b_removed b2) (b_hits b2) (b_hist b2)) (w_objs w)))
          else
            Ok (World cells (set_nth i (BObj (o_addr ob) (b_removed b2) (b_hits b2) (b_hist b2)) (w_objs w)))
      end
  end.
Definition wrun (ops : list wop) (w : world) : res world := foldM wstep ops w.
Definition empty_world : world := World [] [].
(* what the program sees of all its batches *)
Definition view (w : world) : list (batch H) := map (load w) (w_objs w).
End Heap.
Arguments World {H}. Arguments w_cells {H}. Arguments w_objs {H}. Arguments load {H}. Arguments wstep {H}.
Arguments wrun {H}. Arguments empty_world {H}. Arguments view {H}. Arguments inplace {H}. Arguments after {H}.
Arguments rebinds {H}. Arguments WNew {H}. Arguments WCopy {H}. Arguments WOp {H}. Arguments alloc_obj {H}.
Arguments o_addr {H}. Arguments BObj {H}.
