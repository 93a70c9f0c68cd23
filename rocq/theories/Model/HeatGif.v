(* Model of tomopt/optimisation/callbacks/heatmap_gif.py: HeatMapGif, in the fit of Model/Fit.v. *)
From Verif Require Export Model.Observer.
Open Scope list_scope.

(* a picture of a heat map: D *)
(* what _plot_current finds first among the detectors of the volume *)
Inductive first_detector (D : Type) := NoDetector | OtherDetector | NoPanel | HeatMap (d : D).
Arguments NoDetector {D}. Arguments OtherDetector {D}. Arguments NoPanel {D}. Arguments HeatMap {D}.
(* the attributes of the callback and its files: the numbers in the names in _buffer_files, the pictures temp_heatmap_{n}.png, the gif *)
Record gif (D : Type) := Gif { g_buffer : list nat; g_temp : nat -> option D; g_gif : option (list D) }.
Arguments Gif {D}. Arguments g_buffer {D}. Arguments g_temp {D}. Arguments g_gif {D}.

Section Gif.
Context {W P D : Type}.
Variable look : W -> first_detector D.
Variable can : nat -> W -> res unit.     (* whether the n-th picture can be plotted and written *)
Definition put (n : nat) (d : option D) (t : nat -> option D) : nat -> option D := fun k => if Nat.eqb k n then d else t k.
(* heatmap_gif.py:57-71  _plot_current: the name is kept before the picture is written; only the first panel of the first detector is plotted *)
Definition plot_current (w : W) (g : gif D) : res unit * gif D :=
  let n := length (g_buffer g) in
  let g := Gif (g_buffer g ++ [n]) (g_temp g) (g_gif g) in
  match look w with
  | NoDetector | NoPanel => (Ok tt, g)
  | OtherDetector => (Err NotImplementedError, g)
  | HeatMap d => match can n w with
                 | Err e => (Err e, g)
                 | Ok _ => (Ok tt, Gif (g_buffer g) (put n (Some d) (g_temp g)) (g_gif g))
                 end
  end.
(* heatmap_gif.py:80-91  _create_gif: opening the writer makes an empty gif; then the pictures are added, and removed at the end *)
Fixpoint add_frames (ns : list nat) (g : gif D) : res unit * gif D :=
  match ns with
  | [] => (Ok tt, g)
  | n :: ns =>
      match g_temp g n with
      | None => (Err FileNotFoundError, g)
      | Some d => add_frames ns (Gif (g_buffer g) (g_temp g) (match g_gif g with Some l => Some (l ++ [d]) | None => Some [d] end))
      end
  end.
Definition create_gif (g : gif D) : res unit * gif D :=
  match add_frames (g_buffer g) (Gif (g_buffer g) (g_temp g) (Some [])) with
  | (Err e, g) => (Err e, g)
  | (Ok _, g) => (Ok tt, Gif (g_buffer g) (fold_left (fun t n => put n None t) (g_buffer g) (g_temp g)) (g_gif g))
  end.
(* heatmap_gif.py:32-55, 73-78 *)
Definition gif_cb (e : event) (f : fp P) (w : W) (g : gif D) : res unit * gif D :=
  match e with
  | TrainBegin => (Ok tt, Gif [] (g_temp g) (g_gif g))
  | EpochBegin => if is_train (f_state f) then plot_current w g else (Ok tt, g)
  | TrainEnd => match plot_current w g with (Err e, g) => (Err e, g) | (Ok _, g) => create_gif g end
  | _ => (Ok tt, g)
  end.
End Gif.
