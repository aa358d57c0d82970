(** Specification vocabulary for the angle of coupled problems. *)
From Coq Require Import Reals.
From Coquelicot Require Import Complex.
From mathcomp Require Import ssreflect ssrfun ssrbool eqtype ssrnat seq fintype bigop ssralg poly matrix mxpoly.
From Verif Require Import Base M_Sectors RCField M_Matscs S_Channel.
Local Open Scope ring_scope.

Section Spec.
Context {n : nat}.
(** what eigenvalues() returns: the roots of the characteristic polynomial, each as often as its multiplicity, in any order *)
Definition eigenvalues_ok (eigs : 'M[C]_n -> list C) : Prop := forall m, char_poly m = \prod_(z <- eigs m) ('X - z%:P).

(** value and slope of a matrix of solutions, Y and Y' *)
Definition Yof (y : @CY R_fieldType n n) : 'M[R]_n := usubmx (cy y).
Definition Y'of (y : @CY R_fieldType n n) : 'M[R]_n := dsubmx (cy y).
(** det (Y' + i Y), det (Y' - i Y) and their quotient, a number of modulus 1: exp(i phase) *)
Definition det_plus (y : @CY R_fieldType n n) : C := \det (map_mx RtoC (Y'of y) + Ci_ *: map_mx RtoC (Yof y)).
Definition det_minus (y : @CY R_fieldType n n) : C := \det (map_mx RtoC (Y'of y) - Ci_ *: map_mx RtoC (Yof y)).
Definition regular (y : @CY R_fieldType n n) : Prop := det_minus y <> RtoC 0.
Definition phase (y : @CY R_fieldType n n) : C := Cdiv (det_plus y) (det_minus y).
(** Y and Y' are a conjoined basis: Y^T Y' is symmetric and the columns of (Y, Y') are independent *)
Definition conjoined (y : @CY R_fieldType n n) : Prop :=
  (Yof y)^T *m Y'of y = (Y'of y)^T *m Yof y /\ forall c : 'cV[R]_n, Yof y *m c = 0 -> Y'of y *m c = 0 -> c = 0.
(** a step matrix preserves the Wronskian of any two solutions *)
Definition symplectic (t : @CT R_fieldType n) : Prop := forall (r1 r2 : nat) (u : 'M[R]_(n + n, r1)) (v : 'M[R]_(n + n, r2)),
  (usubmx (ct t *m u))^T *m dsubmx (ct t *m v) - (dsubmx (ct t *m u))^T *m usubmx (ct t *m v) =
  (usubmx u)^T *m dsubmx v - (dsubmx u)^T *m usubmx v.
(** a problem without coupling: column i of the matrix of solutions is channel i, with value z i and slope z' i at the point x *)
Definition diagonal_state (z z' : 'I_n -> R -> R) (x : R) (y : @CY R_fieldType n n) : Prop :=
  Yof y = diag_mx (\row_i z i x) /\ Y'of y = diag_mx (\row_i z' i x).
Definition stateM (z z' : 'I_n -> R -> R) (x : R) : 'M[R]_(n + n, n) := col_mx (diag_mx (\row_i z i x)) (diag_mx (\row_i z' i x)).
(** the step matrix of the sector towards x is exact for the problem without coupling in which channel i has the constant
    potential pot i: it maps value and slope of every diagonal matrix of solutions at the sector's start to those at x.
    A backward sector starts at its right end and uses the slope in the direction of the step. *)
Definition exact_channels {P} (calcT : sector R P -> R -> R -> bool -> @CT R_fieldType n) (pot : 'I_n -> R) (E : R) (u : bool) (s : sector R P) (x : R) : Prop :=
  let t := calcT s E (base_dist s x) u in
  ct t \in unitmx /\
  forall z z', (forall i, chan (pot i - E) (smin s) (smax s) (z i) (z' i)) ->
    match sdir s with
    | Dfwd => ct t *m stateM z z' (smin s) = stateM z z' (reachP s x)
    | _ => ct t *m stateM z (fun i x => - z' i x) (smax s) = stateM z (fun i x => - z' i x) (reachP s x)
    end.
End Spec.
