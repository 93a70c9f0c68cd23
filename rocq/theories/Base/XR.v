(* Extended numbers: what a floating-point tensor entry can be, without rounding.
   Finite values are exact reals; +inf, -inf and NaN are kept.  The sign of zero is not kept:
   x/0 is +inf for x>0 and -inf for x<0, as for a positive zero. *)
From Verif Require Export Base.RUtil.
Open Scope R_scope.

Inductive xr := Fin (r : R) | PInf | NInf | NaN.

Definition xisnan (a : xr) : bool := match a with NaN => true | _ => false end.
Definition xisinf (a : xr) : bool := match a with PInf | NInf => true | _ => false end.
Definition xisfin (a : xr) : bool := match a with Fin _ => true | _ => false end.

Definition xopp (a : xr) : xr :=
  match a with Fin x => Fin (- x) | PInf => NInf | NInf => PInf | NaN => NaN end.

Definition xadd (a b : xr) : xr :=
  match a, b with
  | NaN, _ => NaN | _, NaN => NaN
  | Fin x, Fin y => Fin (x + y)
  | PInf, NInf => NaN | NInf, PInf => NaN
  | PInf, _ => PInf | _, PInf => PInf
  | NInf, _ => NInf | _, NInf => NInf
  end.
Definition xsub (a b : xr) : xr := xadd a (xopp b).

(* sign of a real times infinity *)
Definition inf_of_sign (x : R) : xr :=
  if Rlt_dec 0 x then PInf else if Rlt_dec x 0 then NInf else NaN.

Definition xmul (a b : xr) : xr :=
  match a, b with
  | NaN, _ => NaN | _, NaN => NaN
  | Fin x, Fin y => Fin (x * y)
  | PInf, Fin y => inf_of_sign y
  | NInf, Fin y => inf_of_sign (- y)
  | Fin x, PInf => inf_of_sign x
  | Fin x, NInf => inf_of_sign (- x)
  | PInf, PInf => PInf | NInf, NInf => PInf
  | PInf, NInf => NInf | NInf, PInf => NInf
  end.

Definition xdiv (a b : xr) : xr :=
  match a, b with
  | NaN, _ => NaN | _, NaN => NaN
  | Fin x, Fin y => if Req_EM_T y 0 then inf_of_sign x else Fin (x / y)
  | Fin _, PInf => Fin 0 | Fin _, NInf => Fin 0
  | PInf, Fin y => if Rlt_dec y 0 then NInf else PInf
  | NInf, Fin y => if Rlt_dec y 0 then PInf else NInf
  | _, _ => NaN
  end.

Definition xlt (a b : xr) : bool :=
  match a, b with
  | NaN, _ => false | _, NaN => false
  | Fin x, Fin y => Rltb x y
  | NInf, NInf => false | NInf, _ => true
  | PInf, _ => false
  | Fin _, PInf => true | Fin _, NInf => false
  end.
Definition xle (a b : xr) : bool :=
  match a, b with
  | NaN, _ => false | _, NaN => false
  | Fin x, Fin y => Rleb x y
  | NInf, _ => true
  | PInf, PInf => true | PInf, _ => false
  | Fin _, PInf => true | Fin _, NInf => false
  end.
Definition xeq (a b : xr) : bool :=
  match a, b with
  | Fin x, Fin y => Reqb x y
  | PInf, PInf => true | NInf, NInf => true
  | _, _ => false
  end.

(* elementwise functions *)
Definition xfun (f : R -> R) (a : xr) : xr := match a with Fin x => Fin (f x) | _ => NaN end.
Definition xsin := xfun sin.   (* sin(inf) = NaN *)
Definition xcos := xfun cos.
Definition xtan (a : xr) : xr := xdiv (xsin a) (xcos a).
Definition xatan (a : xr) : xr :=
  match a with Fin x => Fin (atan x) | PInf => Fin (PI / 2) | NInf => Fin (- (PI / 2)) | NaN => NaN end.
Definition xabs (a : xr) : xr :=
  match a with Fin x => Fin (Rabs x) | PInf => PInf | NInf => PInf | NaN => NaN end.
Definition xsqrt (a : xr) : xr :=
  match a with
  | Fin x => if Rlt_dec x 0 then NaN else Fin (sqrt x)
  | PInf => PInf | _ => NaN end.
(* log(0) = -inf, log of a negative number = NaN *)
Definition xlog (a : xr) : xr :=
  match a with
  | Fin x => if Rlt_dec 0 x then Fin (ln x) else if Rlt_dec x 0 then NaN else NInf
  | PInf => PInf | _ => NaN end.
(* torch.clamp(a, max=m): NaN stays NaN *)
Definition xclamp_max (m : R) (a : xr) : xr :=
  match a with Fin x => Fin (Rmin x m) | PInf => Fin m | NInf => NInf | NaN => NaN end.
Definition xsquare (a : xr) : xr := xmul a a.
Definition xmod (a : xr) (m : R) : xr :=
  match a with Fin x => Fin (Rmod x m) | _ => NaN end.

Lemma xdiv_fin x y : y <> 0 -> xdiv (Fin x) (Fin y) = Fin (x / y).
Proof. intro H; simpl; destruct (Req_EM_T y 0); [contradiction|auto]. Qed.
Lemma xtan_fin x : cos x <> 0 -> xtan (Fin x) = Fin (tan x).
Proof. intro H; unfold xtan, xsin, xcos; simpl; destruct (Req_EM_T (cos x) 0); [contradiction|]. reflexivity. Qed.
Lemma xsqrt_fin x : 0 <= x -> xsqrt (Fin x) = Fin (sqrt x).
Proof. intro H; simpl; destruct (Rlt_dec x 0); [lra|auto]. Qed.
Lemma xlog_fin x : 0 < x -> xlog (Fin x) = Fin (ln x).
Proof. intro H; simpl; destruct (Rlt_dec 0 x); [auto|lra]. Qed.

(* torch.clamp(a, lo, hi) with finite bounds: NaN stays NaN *)
Definition xclamp (lo hi : R) (a : xr) : xr :=
  match a with Fin x => Fin (Rclamp lo hi x) | PInf => Fin (Rclamp lo hi hi) | NInf => Fin (Rmin lo hi) | NaN => NaN end.
(* torch.clamp_min(a, m) *)
Definition xclamp_min (m : R) (a : xr) : xr :=
  match a with Fin x => Fin (Rmax x m) | PInf => PInf | NInf => Fin m | NaN => NaN end.
Definition xexp (a : xr) : xr :=
  match a with Fin x => Fin (exp x) | PInf => PInf | NInf => Fin 0 | NaN => NaN end.
(* torch.sigmoid *)
Definition sigmoid (x : R) : R := 1 / (1 + exp (- x)).
Definition xsigmoid (a : xr) : xr :=
  match a with Fin x => Fin (sigmoid x) | PInf => Fin 1 | NInf => Fin 0 | NaN => NaN end.
(* torch.sign *)
Definition xsign (a : xr) : xr :=
  match a with
  | Fin x => Fin (if Rlt_dec 0 x then 1 else if Rlt_dec x 0 then -1 else 0)
  | PInf => Fin 1 | NInf => Fin (-1) | NaN => NaN end.
