(* The uncertainty of the point where a muon enters the passive volume, with two panels above. *)
Require Import Reals Lra Lia.
From Verif Require Import Model.Grad Spec.ScatterSpec Spec.GradSpec Proofs.GradP Properties.ScatterProps Base.XR.
Open Scope R_scope.
Open Scope list_scope.

Lemma used_one x z w : weight_ok w -> used1 (Fin x) z (Fin w) = [(x, z, w)].
Proof. intros [_ H]. unfold used1. destruct (Rlt_dec w (2 ^ 75)); [reflexivity|contradiction]. Qed.
Lemma two_panel_track lw x0 y0 z0 x1 y1 z1 w0x w0y w0z w1x w1y w1z :
  z0 <> z1 -> weight_ok w0x -> weight_ok w0y -> weight_ok w1x -> weight_ok w1y ->
  trajectory lw [V3 (Fin x0) (Fin y0) (Fin z0); V3 (Fin x1) (Fin y1) (Fin z1)] [V3 (Fin w0x) (Fin w0y) w0z; V3 (Fin w1x) (Fin w1y) w1z]
  = Ok (track_on (x0 - (x1 - x0) / (z1 - z0) * z0) ((x1 - x0) / (z1 - z0)) (y0 - (y1 - y0) / (z1 - z0) * z0) ((y1 - y0) / (z1 - z0)) z0 z1).
Proof.
  intros Hz A B C D.
  pose proof (C25_fit_exact lw (Hit (Fin x0) (Fin y0) z0 (Fin w0x) (Fin w0y) w0z) (Hit (Fin x1) (Fin y1) z1 (Fin w1x) (Fin w1y) w1z) []
    (x0 - (x1 - x0) / (z1 - z0) * z0) ((x1 - x0) / (z1 - z0)) (y0 - (y1 - y0) / (z1 - z0) * z0) ((y1 - y0) / (z1 - z0))) as F.
  cbv zeta in F. unfold used_x, used_y in F. cbn [map flat_map h_x h_y h_z u_x u_y u_z] in F. rewrite !used_one in F by assumption. cbn [app] in F. apply F.
  - assert (K : forall x w, weight_ok w -> fit_ok (Fin x) (Fin w)).
    { intros x w [Hw _]. split; [discriminate|]. right. exists w. split; [reflexivity|]. split; [exact Hw|]. right. exists x. reflexivity. }
    intros h [<-|[<-|[]]]; cbn; split; apply K; assumption.
  - exists (x0, z0, w0x), (x1, z1, w1x). cbn. auto.
  - exists (y0, z0, w0y), (y1, z1, w1y). cbn. auto.
  - intros x z s [E|[E|[]]]; injection E as <- <- _; field; lra.
  - intros x z s [E|[E|[]]]; injection E as <- <- _; field; lra.
Qed.
Lemma two_panel_entry zr x0 y0 z0 x1 y1 z1 : z0 <> z1 ->
  xyz_in1 zr (track_on (x0 - (x1 - x0) / (z1 - z0) * z0) ((x1 - x0) / (z1 - z0)) (y0 - (y1 - y0) / (z1 - z0) * z0) ((y1 - y0) / (z1 - z0)) z0 z1)
  = fv (x0 * ((z1 - snd zr) / (z1 - z0)) + x1 * ((snd zr - z0) / (z1 - z0)), y0 * ((z1 - snd zr) / (z1 - z0)) + y1 * ((snd zr - z0) / (z1 - z0)), snd zr).
Proof.
  intros Hz. unfold xyz_in1, track_on, fv. cbn. destruct (Req_EM_T (z1 - z0) 0); [lra|]. unfold vadd, vscale. cbn [vx vy vz xmul xadd]. f_equal; f_equal; field; lra.
Qed.

Lemma linear_derivative a b x : derivable_pt_lim (fun t => t * a + b) x a.
Proof.
  intros eps He. exists (mkposreal 1 ltac:(lra)). intros h Hh _. replace (((x + h) * a + b - (x * a + b)) / h - a) with 0 by (field; exact Hh). rewrite Rabs_R0. exact He.
Qed.
Lemma Rsum_zeros ds us : (forall k, (k < List.length ds)%nat -> nth k ds 0 = 0) -> Rsum (map2 (fun d u => d * u * (d * u)) ds us) = 0.
Proof.
  revert us. induction ds as [|d ds IH]; intros [|u us] H; cbn [map2 Rsum]; try reflexivity.
  rewrite (IH us) by (intros k Hk; exact (H (S k) ltac:(cbn; lia))). rewrite (H 0%nat ltac:(cbn; lia) : d = 0). ring.
Qed.

Section Entry.
Variables (lw zr : R * R) (w0x w0y w1x w1y : R) (w0z w1z : xr) (g : list R -> R).
Let ws := [V3 (Fin w0x) (Fin w0y) w0z; V3 (Fin w1x) (Fin w1y) w1z].
Hypothesis W : weight_ok w0x /\ weight_ok w0y /\ weight_ok w1x /\ weight_ok w1y.
Variables (z0 z1 : R).
Hypothesis Hz : z0 <> z1.
Let far := (z1 - snd zr) / (z1 - z0).
Let close := (snd zr - z0) / (z1 - z0).

Lemma entry_x_val x0 y0 x1 y1 rest : entry_x lw zr ws g -> g (x0 :: y0 :: z0 :: x1 :: y1 :: z1 :: rest) = x0 * far + x1 * close.
Proof.
  intros G. destruct W as (A & B & C & D). eapply G; [cbn [as_hits firstn]; apply (two_panel_track lw x0 y0 z0 x1 y1 z1 w0x w0y w0z w1x w1y w1z); assumption|]. rewrite two_panel_entry by exact Hz. reflexivity.
Qed.
Lemma entry_y_val x0 y0 x1 y1 rest : entry_y lw zr ws g -> g (x0 :: y0 :: z0 :: x1 :: y1 :: z1 :: rest) = y0 * far + y1 * close.
Proof.
  intros G. destruct W as (A & B & C & D). eapply G; [cbn [as_hits firstn]; apply (two_panel_track lw x0 y0 z0 x1 y1 z1 w0x w0y w0z w1x w1y w1z); assumption|]. rewrite two_panel_entry by exact Hz. reflexivity.
Qed.

Lemma partial_linear x k a b d : (forall t, g (set_at k t x) = t * a + b) -> partial g x k d -> d = a.
Proof. intros E P. refine (uniqueness_limite _ _ _ _ (derivable_ext' _ _ _ _ E P) (linear_derivative a b _)). Qed.

Variables (x0 y0 x1 y1 : R) (rest ds us : list R) (known : nat -> Prop).
Let h := x0 :: y0 :: z0 :: x1 :: y1 :: z1 :: rest.
Variables (u0x u0y u1x u1y : R) (ur : list R).
Hypothesis known_dec : forall k, known k \/ ~ known k.
Hypothesis Eu : us = u0x :: u0y :: 0 :: u1x :: u1y :: 0 :: ur.
Hypothesis Ld : List.length ds = List.length h.
Hypothesis D : forall k, (k < List.length h)%nat -> (known k -> partial g h k (nth k ds 0)) /\ (~ known k -> nth k ds 0 = 0).

Lemma flat_coordinate k c : (k < List.length h)%nat -> (forall t, g (set_at k t h) = c) -> nth k ds 0 = 0.
Proof.
  intros Hk E. destruct (D k Hk) as [P N]. destruct (known_dec k) as [K|K]; [|exact (N K)]. exact (partial_const _ _ _ _ _ E (P K)).
Qed.
Lemma entry_x_unc : entry_x lw zr ws g -> known 0%nat -> known 3%nat -> quadrature ds us = sqrt ((far * u0x) ^ 2 + (close * u1x) ^ 2).
Proof.
  intros G K0 K3. assert (L : forall k, (k < 6)%nat -> (k < List.length h)%nat) by (intros k Hk; unfold h; cbn [List.length]; lia).
  assert (E0 : nth 0 ds 0 = far). { apply (partial_linear h 0 far (x1 * close)); [intros t; cbn; apply entry_x_val; exact G|]. apply D; [apply L; lia|exact K0]. }
  assert (E3 : nth 3 ds 0 = close). { apply (partial_linear h 3 close (x0 * far)); [intros t; unfold h, set_at; cbn; rewrite entry_x_val by exact G; ring|]. apply D; [apply L; lia|exact K3]. }
  assert (E1 : nth 1 ds 0 = 0). { apply (flat_coordinate 1 (x0 * far + x1 * close)); [apply L; lia|]. intros t. unfold h, set_at. cbn. apply entry_x_val. exact G. }
  assert (E4 : nth 4 ds 0 = 0). { apply (flat_coordinate 4 (x0 * far + x1 * close)); [apply L; lia|]. intros t. unfold h, set_at. cbn. apply entry_x_val. exact G. }
  assert (Er : forall k, (k < List.length rest)%nat -> nth (6 + k) ds 0 = 0).
  { intros k Hk. apply (flat_coordinate (6 + k) (x0 * far + x1 * close)); [unfold h; cbn [List.length]; lia|]. intros t.
    change (set_at (6 + k) t h) with (x0 :: y0 :: z0 :: x1 :: y1 :: z1 :: set_at k t rest). apply entry_x_val. exact G. }
  unfold h in Ld. cbn [List.length] in Ld. destruct ds as [|d0 [|d1 [|d2 [|d3 [|d4 [|d5 dr]]]]]]; try discriminate. cbn [nth] in *. cbn [List.length] in Ld.
  subst us d0 d1 d3 d4. unfold quadrature. f_equal. cbn [map2 Rsum]. rewrite Rsum_zeros; [ring|]. intros k Hk. apply Er. lia.
Qed.
Lemma entry_y_unc : entry_y lw zr ws g -> known 1%nat -> known 4%nat -> quadrature ds us = sqrt ((far * u0y) ^ 2 + (close * u1y) ^ 2).
Proof.
  intros G K0 K3. assert (L : forall k, (k < 6)%nat -> (k < List.length h)%nat) by (intros k Hk; unfold h; cbn [List.length]; lia).
  assert (E1 : nth 1 ds 0 = far). { apply (partial_linear h 1 far (y1 * close)); [intros t; unfold h, set_at; cbn; apply entry_y_val; exact G|]. apply D; [apply L; lia|exact K0]. }
  assert (E4 : nth 4 ds 0 = close). { apply (partial_linear h 4 close (y0 * far)); [intros t; unfold h, set_at; cbn; rewrite entry_y_val by exact G; ring|]. apply D; [apply L; lia|exact K3]. }
  assert (E0 : nth 0 ds 0 = 0). { apply (flat_coordinate 0 (y0 * far + y1 * close)); [apply L; lia|]. intros t. unfold h, set_at. cbn. apply entry_y_val. exact G. }
  assert (E3 : nth 3 ds 0 = 0). { apply (flat_coordinate 3 (y0 * far + y1 * close)); [apply L; lia|]. intros t. unfold h, set_at. cbn. apply entry_y_val. exact G. }
  assert (Er : forall k, (k < List.length rest)%nat -> nth (6 + k) ds 0 = 0).
  { intros k Hk. apply (flat_coordinate (6 + k) (y0 * far + y1 * close)); [unfold h; cbn [List.length]; lia|]. intros t.
    change (set_at (6 + k) t h) with (x0 :: y0 :: z0 :: x1 :: y1 :: z1 :: set_at k t rest). apply entry_y_val. exact G. }
  unfold h in Ld. cbn [List.length] in Ld. destruct ds as [|d0 [|d1 [|d2 [|d3 [|d4 [|d5 dr]]]]]]; try discriminate. cbn [nth] in *. cbn [List.length] in Ld.
  subst us d0 d1 d3 d4. unfold quadrature. f_equal. cbn [map2 Rsum]. rewrite Rsum_zeros; [ring|]. intros k Hk. apply Er. lia.
Qed.
End Entry.
