(* Property C114, continued: muons generated above a volume. *)
From Coq Require Import Reals List Lra Lia.
From Verif Require Import Model.Volume Model.DataCb Spec.VolumeSpec Spec.EnlargeSpec Model.Generation.
From Verif Require Import Base.XR.
Open Scope R_scope.
Open Scope list_scope.

Definition big_row (k : R) (r : muon_row) : muon_row := Row (k * m_x r) (k * m_y r) (m_p r) (m_theta r) (m_phi r).
(* the muons generated above a volume of size lw and height h, with its lowest passive layer from z on and voxels of size s *)
Definition generated flux lw h z s min_angle fixed_mom energies thetas mass2 ds : res (list muon_row) :=
  g <- from_volume flux lw h z s min_angle fixed_mom energies thetas ;; generate_set mass2 g ds.
Lemma mapM_big {A} k (f f' : A -> res muon_row) ds : (forall d, f' d = rmap (big_row k) (f d)) -> mapM f' ds = rmap (map (big_row k)) (mapM f ds).
Proof.
  intro H. induction ds as [|d ds IH]; [reflexivity|]. cbn [mapM]. rewrite H. destruct (f d) as [r|e]; [|reflexivity]. cbn [rmap bind]. rewrite IH. destruct (mapM f ds); reflexivity.
Qed.

(* C114. Above a volume with all lengths multiplied by k the same random numbers give muons at places multiplied by k, with the same momenta and
   directions, for every flux; and exceptions are the same. *)
Theorem C114_generated :
  forall k flux lw h z s min_angle fixed_mom energies thetas mass2 ds,
  generated flux (k * fst lw, k * snd lw) (k * h) (k * z) (k * s) min_angle fixed_mom energies thetas mass2 ds
  = rmap (map (big_row k)) (generated flux lw h z s min_angle fixed_mom energies thetas mass2 ds).
Proof.
  intros. unfold generated, from_volume, new_generator. destruct (geomspace _ _ _) as [es|e]; [|reflexivity]. cbn [bind]. unfold generate_set. cbn [g_cum].
  destruct (cumsum _) as [|c cs]; [reflexivity|]. destruct (last _ _) as [total| | |]; try reflexivity. apply mapM_big. intro d. unfold sample1. cbn [g_cum g_mom g_energy g_theta g_x g_y fst snd].
  assert (U : forall l r, uniform (0 - tan min_angle * (k * h - k * z + k * s)) (k * l + tan min_angle * (k * h - k * z + k * s)) r = k * uniform (0 - tan min_angle * (h - z + s)) (l + tan min_angle * (h - z + s)) r)
    by (intros; unfold uniform; ring).
  destruct fixed_mom; [|destruct (Generation.get (centres es) _); [|reflexivity]]; cbn [bind]; (destruct (Generation.get (centres _) _); [|reflexivity]); cbn [bind rmap]; unfold big_row; cbn [m_x m_y m_p m_theta m_phi]; rewrite !U; reflexivity.
Qed.
Print Assumptions C114_generated.

(* C114. ... and muons at places multiplied by k start at the top of the volume multiplied by k. *)
Definition big_row5 (k : R) (r : xr * xr * xr * xr * xr) := let '(x, y, p, th, ph) := r in (big k x, big k y, p, th, ph).
Theorem C114_start :
  forall k ls H rows b, vol_h ls = Ok H -> new_batch (H := hrow) rows (Sc (Fin H)) = Ok b ->
  vol_h (map (big_layer k) ls) = Ok (k * H) /\ new_batch (H := hrow) (map (big_row5 k) rows) (Sc (Fin (k * H))) = Ok (big_batch k b).
Proof.
  intros k ls H rows b EH Eb. split.
  - unfold vol_h in *. destruct ls as [|l ls]; [discriminate|]. cbn [map]. injection EH as <-. destruct l; reflexivity.
  - injection Eb as <-. cbn. unfold big_batch. cbn. do 2 f_equal. rewrite !map_map. apply map_ext. intros [[[[x y] p] th] ph]. reflexivity.
Qed.
Print Assumptions C114_start.

(* one muon above a volume of one metre, and the same for a volume twice as large *)
Example C114_generated_case :
  exists p th, generated (fun _ _ => Fin 1) (1, 1) 1 0 (1 / 10) 0 (Some 5) (1, 2) (0, 1) 0 [Draw 0 0 (1 / 2) (1 / 4)] = Ok [Row (1 / 2) (1 / 4) p th 0]
  /\ generated (fun _ _ => Fin 1) (2 * fst (1, 1), 2 * snd (1, 1)) (2 * 1) (2 * 0) (2 * (1 / 10)) 0 (Some 5) (1, 2) (0, 1) 0 [Draw 0 0 (1 / 2) (1 / 4)] = Ok [Row 1 (1 / 2) p th 0].
Proof.
  assert (E : exists p th, generated (fun _ _ => Fin 1) (1, 1) 1 0 (1 / 10) 0 (Some 5) (1, 2) (0, 1) 0 [Draw 0 0 (1 / 2) (1 / 4)] = Ok [Row (1 / 2) (1 / 4) p th 0]).
  { unfold generated, from_volume, new_generator, geomspace. cbn [fst snd]. destruct (Reqb_spec 1 0); [lra|]. destruct (Reqb_spec 2 0); [lra|]. cbn [orb bind]. unfold generate_set. cbn [g_cum].
    set (es := centres (map _ _)). set (ts := centres (linspace _ _ _)).
    assert (Le : List.length es = 200%nat) by (subst es; reflexivity). assert (Lt : List.length ts = 200%nat) by (subst ts; reflexivity). clearbody es ts.
    destruct es as [|e es]; [discriminate|]. destruct ts as [|t ts]; [discriminate|].
    set (l := flat_map _ _). assert (Hl : exists l', l = Fin 1 :: l' /\ Forall (eq (Fin 1)) l').
    { assert (A : Forall (eq (Fin 1)) l). { apply Forall_forall. intros x X. subst l. apply in_flat_map in X as (? & _ & X). apply in_map_iff in X as (? & <- & _). reflexivity. }
      subst l. eexists. split; [reflexivity|]. exact (Forall_inv_tail A). }
    destruct Hl as (l' & El & F). clearbody l. subst l.
    assert (S : forall l a d, Forall (eq (Fin 1)) l -> exists r, last (Fin a :: cumsum_from (Fin a) l) d = Fin r).
    { induction l as [|x l IH]; intros a d Fl; [exists a; reflexivity|]. inversion Fl as [|? ? Fx Fr]; subst. destruct (IH (a + 1) d Fr) as [r R]. exists r. rewrite <- R. reflexivity. }
    destruct (S l' (0 + 1) NaN F) as [r T].
    unfold cumsum. cbn [cumsum_from xadd]. rewrite T. cbn [mapM]. unfold sample1. cbn [g_cum g_mom g_energy g_theta g_x g_y fst snd d_flux d_phi d_x d_y searchsorted xlt].
    assert (Z : uniform 0 r 0 = 0) by (unfold uniform; ring). rewrite Z. destruct (Rltb_spec (0 + 1) 0); [lra|]. cbn. do 2 eexists. rewrite tan_0. unfold uniform. do 3 f_equal; lra. }
  destruct E as (p & th & E). exists p, th. split; [exact E|]. rewrite (C114_generated 2 (fun _ _ => Fin 1) (1, 1)), E. cbn. unfold big_row. cbn. do 3 f_equal; lra.
Qed.
