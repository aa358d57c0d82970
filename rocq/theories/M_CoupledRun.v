(** Coupled problems: the step matrices of M_Coupled.v and the angle of M_Angle.v as the arguments of the propagation of M_Matscs.v.

    Models /repo/matslise/matscs/sector.cpp:95-105 (the matrix handed to propagateDelta) and :174 (vs[0].diagonal()): a sector of
    a Matscs problem carries its length, its transformed coefficients and its eigenvectors ([csector]).  Over the reals. *)
From Coq Require Import Reals.
From Coquelicot Require Import Complex.
From mathcomp Require Import ssreflect ssrfun ssrbool eqtype ssrnat seq fintype bigop ssralg matrix.
From Verif Require Import Base M_Sectors M_Formulas M_Coupled M_Matscs RCField M_Angle.
Local Open Scope ring_scope.

Section Run.
Variable n : nat.
(** util/y.h:139-153: a 2n x 2n matrix from its four blocks *)
Definition from_blocks (b : nat -> mat) : 'M[R_fieldType]_(n + n) :=
  block_mx (\matrix_(i, j) b O i j) (\matrix_(i, j) b 1%N i j) (\matrix_(i, j) b 2%N i j) (\matrix_(i, j) b 3%N i j).
Definition as_CT (T : CTm) : @CT R_fieldType n := mkCT (from_blocks (cb T)) (from_blocks (cdb T)).
(** sector.cpp:95-105 calculateT(E, delta, use_h) *)
Definition code_calcT (etaf : nat -> R -> list R) (s : sector R csector) (E delta : R) (use_h : bool) : @CT R_fieldType n :=
  as_CT (ccalculateT etaf n (spay s) E delta use_h).
(** sector.cpp:174 vs[0].diagonal() *)
Definition code_ev (s : sector R csector) (i : 'I_n) : R := cs_vs (spay s) O i i.
(** matscs.cpp:33-54 propagate, for the step matrices and the angle of the code *)
Definition code_propagate (etaf : nat -> R -> list R) (eta2 : R -> R * R) (eigs : 'M[C]_n -> list C) :=
  mpropagate (code_calcT etaf) (argdet eta2 eigs code_ev).
End Run.
