(* Model of tomopt/optimisation/callbacks/data_callbacks.py (MuonResampler) and of ScatterRecord in diagnostic_callbacks.py.
   gen k n: what the muon generator returns the k-th time it is called, for n muons.
   The while loop of resample runs for at most a given number of rounds; None: they are used up. *)
From Verif Require Export Model.Volume.
Open Scope R_scope.
Open Scope list_scope.

(* volume/volume.py:382-389  h: the z of the first layer *)
Definition layer_z (l : layer) : R := match l with LPass L => pl_z L | LDet D => dl_z D end.
Definition vol_h (ls : list layer) : res R := match ls with [] => Err IndexError | l :: _ => Ok (layer_z l) end.

(* data_callbacks.py:37-40: the copy is moved to the top of each passive layer in turn *)
Fixpoint check_layers (ls : list layer) (ps : list passive) (ok : list bool) (b : batch unit) : res (list bool) :=
  match ps with
  | [] => Ok ok
  | L :: ps =>
      b <- propagate_dz (Vec (map (fun u => xsub (mz u) (Fin (pl_z L))) (b_muons b))) None b ;;
      last <- last_passive ls ;;
      check_layers ls ps (map2 orb ok (get_xy_mask (Some (Fin 0, Fin 0)) (Some (Fin (pl_lx last), Fin (pl_ly last))) b)) b
  end.
(* 22-40  check_mu_batch *)
Definition check_mu_batch (ls : list layer) (b : batch unit) : res (list bool) :=
  b <- copy b ;; check_layers ls (passives ls) (repeat false (length (b_muons b))) b.

(* 42-73  resample, on the (n,5) tensor *)
Fixpoint resample (ls : list layer) (gen : nat -> nat -> list row5) (fuel k : nat) (ok : list bool) (mus : list row5) : option (res (list row5)) :=
  if Nat.ltb (count_true ok) (length mus) then
    match fuel with
    | O => None
    | S fuel =>
        match
          (let check_mask := negm ok in
           rows <- bool_index check_mask mus ;;
           h <- vol_h ls ;;
           mu <- new_batch (H := unit) rows (Sc (Fin h)) ;;
           tmp <- check_mu_batch ls mu ;;
           let again := negm tmp in
           check <- bool_assign again rows (gen k (count_true again)) ;;
           mus <- bool_assign check_mask mus check ;;
           old <- bool_index check_mask ok ;;
           ok <- bool_assign check_mask ok (map2 orb old tmp) ;;
           Ok (ok, mus))
        with
        | Err e => Some (Err e)
        | Ok (ok, mus) => resample ls gen fuel (S k) ok mus
        end
    end
  else Some (Ok mus).
(* 56-57: the columns x, y, p, theta, phi of an (n,6) tensor *)
Definition row_of (u : muon) : row5 := (mx u, my u, mp u, mth u, mph u).
Definition put_row (u : muon) (r : row5) : muon := pad_row r (mz u).
(* 75-84  on_mu_batch_begin *)
Definition resampler (ls : list layer) (gen : nat -> nat -> list row5) (fuel : nat) (ms : list muon) : option (res (list muon)) :=
  match resample ls gen fuel 0 (repeat false (length ms)) (map row_of ms) with
  | None => None
  | Some (Err e) => Some (Err e)
  | Some (Ok rows) => Some (Ok (map2 put_row ms rows))
  end.

(* ---------- diagnostic_callbacks.py:55-73  ScatterRecord._to_df ---------- *)
(* np.linspace(a, b, n + 1) *)
Definition linspace (a b : R) (n : nat) : list R := map (fun i => a + INR i * ((b - a) / INR n)) (seq 0 (S n)).
(* pd.cut with labels=False: the number of the bin (l, r] of x; None: in no bin *)
Fixpoint cut (edges : list R) (i : nat) (x : R) : option nat :=
  match edges with
  | l :: ((r :: _) as edges) => if Rltb l x && Rleb x r then Some i else cut edges (S i) x
  | _ => None
  end.
Definition scatter_layer (ls : list layer) (z : R) : res (option nat) :=
  '(dw, up) <- passive_z_range ls ;;
  h <- vol_h ls ;;
  Ok (cut (linspace dw up (length (passives ls))) 0 (h - z)).
