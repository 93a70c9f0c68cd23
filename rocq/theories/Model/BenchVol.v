(* Model of the detector layouts of the benchmarks: tomopt/benchmarks/small_walls/volume.py (get_small_walls_volume) and
   tomopt/benchmarks/ladle_furnace/volume.py.  Real numbers in place of floats, so np.arange has exactly the length its formula says.
   get_small_walls_volume_wrapper only adds optimisers and a generator. *)
From Coq Require Import ZArith.
From Verif Require Export Model.Volume.
Open Scope R_scope.
Open Scope string_scope.
Open Scope list_scope.

(* np.arange(start, stop, -size): ceil((stop - start) / -size) values from start downwards, none when that is not positive.
   start is a tensor here, so a size of 0 gives an infinite length, which numpy refuses *)
Definition arange_down (start stop size : R) : res (list R) :=
  if Reqb size 0 then Err ValueError
  else Ok (map (fun i => start + INR i * - size) (seq 0 (Z.to_nat (- Rfloor (- ((stop - start) / - size)))))).
(* np.round(.., decimals=2) *)
Definition round2 (x : R) : R := IZR (round_half_even (x * 100)) / 100.

(* layer.py:107-121  PassiveLayer with the default step and model, nothing loaded *)
Definition new_passive (lx ly z size : R) : layer := LPass (Passive lx ly z size (1/100) None "pdg").

(* small_walls/volume.py:16-66  get_small_walls_volume; panels have the defaults of panel.py:66-78 *)
Definition walls_panels (lx ly top d span res eff : R) : Res.res (list panel) :=
  mapM (fun i => new_panel Gauss res eff (lx / 2) (ly / 2) (top - INR i * d / 4) (span * lx) (span * ly) 1 None true) (seq 0 4).
Definition get_small_walls_volume (argsort : list R -> list nat) (size lx ly h span res eff d : R) : Res.res volume :=
  up <- walls_panels lx ly (h + 2 * d) d span res eff ;;
  zs <- arange_down h 0 size ;;
  dn <- walls_panels lx ly d d span res eff ;;
  new_volume argsort (LDet (Det "above" lx ly (h + 2 * d) d up) :: map (fun z => new_passive lx ly (z + d) size) (map round2 zs)
              ++ [LDet (Det "below" lx ly d d dn)]) None.

(* ladle_furnace/volume.py: the same code three times with other positions (12-104, 107-199, 202-294).  The third argument of a panel:
   eff itself, or the constant 1 of the second panel below *)
Definition ladle_panels (xy res span : R) (ps : list (R * R * R)) : Res.res (list panel) :=
  mapM (fun p : R * R * R => let '(smooth, eff, z) := p in new_panel (Sig smooth) res eff xy xy z span span 1 None true) ps.
Definition ladle_detector (xy : R) (za zb : R * R * R * R) (res eff span : R) : Res.res (list layer) :=
  let '(a1, a2, a3, a4) := za in let '(b1, b2, b3, b4) := zb in
  up <- ladle_panels xy res span [(1, eff, a1); (1/10, eff, a2); (1, eff, a3); (1, eff, a4)] ;;
  zs <- arange_down (9/5 - 2/5) (2/5) (1/10) ;;
  dn <- ladle_panels xy res span [(1, eff, b1); (1, 1, b2); (1, eff, b3); (1, eff, b4)] ;;
  Ok (LDet (Det "above" 1 1 (9/5) (2/5) up) :: map (fun z => new_passive 1 1 z (1/10)) (map round2 zs)
      ++ [LDet (Det "below" 1 1 (2/5) (2/5) dn)]).
Definition get_initial_detector := ladle_detector 0 (148/100, 147/100, 146/100, 145/100) (35/100, 34/100, 33/100, 32/100).
Definition get_baseline_detector_1 := ladle_detector (1/2) (180/100, 175/100, 150/100, 145/100) (35/100, 30/100, 5/100, 0).
Definition get_baseline_detector_2 := ladle_detector (1/2) (175/100, 165/100, 155/100, 145/100) (35/100, 25/100, 15/100, 5/100).
