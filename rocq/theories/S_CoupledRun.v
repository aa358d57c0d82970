(** Specification vocabulary for whole propagations of coupled problems. *)
From Coq Require Import Reals.
From Coquelicot Require Import Complex.
From mathcomp Require Import ssreflect ssrfun ssrbool eqtype ssrnat seq fintype bigop ssralg matrix.
From Verif Require Import Base M_Sectors M_Coupled RCField S_Channel.
Delimit Scope R_scope with Re.
Local Open Scope ring_scope.

Section Spec.
Variable n : nat.
Notation sec := (sector R csector).
(** the sector has a direction, a positive length, which it stores, and eigenvectors that are orthonormal *)
Definition diagonalize (s : sec) : 'M[R_fieldType]_n := \matrix_(i, j) cs_Q (spay s) i j.
Definition well_formed (s : sec) : Prop :=
  (sdir s = Dfwd \/ sdir s = Dbwd) /\ (smin s < smax s)%Re /\ cs_h (spay s) = (smax s - smin s)%Re /\ diagonalize s *m (diagonalize s)^T = 1%:M.
(** the potential matrix is constant on the sector: the higher coefficients vanish *)
Definition constant_potential (s : sec) : Prop := forall k i j, (1 <= k <= 8)%N -> (i < n)%N -> (j < n)%N -> cs_vs (spay s) k i j = 0.
(** the potential matrix of the sector, in the original basis *)
Definition mean_potential (s : sec) : 'M[R_fieldType]_n := diagonalize s *m diag_mx (\row_i cs_vs (spay s) O i i) *m (diagonalize s)^T.
(** x is not closer than 10^-12 to an end of the sector, unless the part of the sector before x is empty or the whole sector *)
Definition reachableP (s : sec) (x : R) : Prop :=
  (base_dist s x = 0 \/ / 10 ^ 12 < base_dist s x /\ (base_dist s x = smax s - smin s \/ base_dist s x < smax s - smin s - / 10 ^ 12))%Re.
End Spec.
