(** Coupled problems: the angle returned by Matscs::propagate.

    Models /repo/matslise/matscs/sector.cpp:141-199 over the real and complex numbers (exact arithmetic).  The eigenvalues of a complex
    matrix (Eigen's eigenvalues()) are an argument; partialPivLu().solve is modelled as multiplication by the inverse. *)
From Coq Require Import Reals.
From Coquelicot Require Import Complex.
From Coq Require Import List Bool.
From mathcomp Require Import ssreflect ssrfun ssrbool eqtype ssrnat seq fintype bigop ssralg matrix.
From Verif Require Import Base M_Sectors M_Core M_Matscs RCField.
Open Scope R_scope.

(** std::arg *)
Definition carg (z : C) : R := atan2 (snd z) (fst z).
(** sector.cpp:155-159: the argument of an eigenvalue, moved from (-pi, pi] to (0, 2 pi] *)
Definition cangle (z : C) : R := let a := carg z in if Rleb a 0 then a + PI * 2 else a.
Fixpoint lsum (l : list R) : R := match l with nil => 0 | cons a t => a + lsum t end.

(** sector.cpp:180-186: the angle of one channel of the reference problem, [e0] and [e1] are eta(0, i), eta(1, i) *)
Definition ref_angle (d Z e0 e1 : R) : R :=
  if Rltb Z 0 then
    let sZ := (if Rltb d 0 then -1 else 1) * sqrt (- Z) in
    sZ + atan2 ((d - sZ) * e1 * e0) (1 + (d * sZ + Z) * e1 * e1)
  else atan2 (d * e1) e0.
(** sector.cpp:194-196: (eta_0 + i d eta_1) / (eta_0 - i d eta_1) *)
Definition ref_turn (d e0 e1 : R) : C := Cdiv (e0, d * e1) (e0, - (d * e1)).

Section Angle.
Context {n : nat} {P : Type}.
Notation sec := (sector R P).
(** calculateEta<Scalar, 2> *)
Variable eta : R -> R * R.
(** Eigen's eigenvalues() of a complex matrix *)
Variable eigs : 'M[C]_n -> list C.
(** vs[0].diagonal(): the eigenvalues of the mean potential matrix of the sector, in the order of SelfAdjointEigenSolver *)
Variable ev : sec -> 'I_n -> R.

(** y.block() and y.block(dX) *)
Definition yblock (y : @CY R_fieldType n n) : 'M[R]_n := usubmx (cy y).
Definition yblock' (y : @CY R_fieldType n n) : 'M[R]_n := dsubmx (cy y).
(** y.block(dX) + s y.block() * complex(0, 1) for s = 1, -1 *)
Definition yplus (y : @CY R_fieldType n n) : 'M[C]_n := \matrix_(i, j) ((yblock' y i j, yblock y i j) : C).
Definition yminus (y : @CY R_fieldType n n) : 'M[C]_n := \matrix_(i, j) ((yblock' y i j, - yblock y i j) : C).

(** sector.cpp:141-148 theta *)
Definition thetaM (y : @CY R_fieldType n n) : 'M[C]_n :=
  trmx (mulmx (invmx (trmx (yminus y))) (trmx (yplus y))).
(** sector.cpp:150-162 angle *)
Definition angles (m : 'M[C]_n) : list R := List.map cangle (eigs m).

(** sector.cpp:164-199 propagateDelta: the angle increment.  Simplification: (betas - alphas).sum() is written as the difference of
    the two sums. *)
Definition argdet (s : sec) (E delta : R) (y0 y1 : @CY R_fieldType n n) : R :=
  let h := csh s in
  let d := if Rltb h delta then h else if Rltb delta (- h) then - h else delta in
  let Z i := d * d * (ev s i - E) in
  let ref := 2 * lsum [seq ref_angle d (Z i) (fst (eta (Z i))) (snd (eta (Z i))) | i <- enum 'I_n] in
  let turn := diag_mx (\row_i ref_turn d (fst (eta (Z i))) (snd (eta (Z i)))) : 'M[C]_n in
  let betas := angles (thetaM y1) in
  let alphas := angles (mulmx turn (thetaM y0)) in
  ref + (lsum betas - lsum alphas).
End Angle.
