(** Specification of polynomials: the mathematical value sum_i c_i x^i. *)
From Coq Require Import Reals List.
Import ListNotations.
Open Scope R_scope.
Definition sumR (l : list R) : R := fold_right Rplus 0 l.
Definition polyval (c : list R) (x : R) : R := sumR (map (fun i => nth i c 0 * x ^ i) (seq 0 (length c))).
