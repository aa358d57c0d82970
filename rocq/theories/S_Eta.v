(** Specification of the functions eta_i of Ixaru (used by the CP methods):
    eta_i(Z) = sum_q Z^q / ((2q)!! (2q+2i-1)!!). *)
From Coq Require Import Reals.
From Coquelicot Require Import Coquelicot.
Open Scope R_scope.

(** (2m-1)!! = 1 * 3 * ... * (2m-1), and (2q)!! = 2 * 4 * ... * 2q *)
Fixpoint odd_dfact (m : nat) : R := match m with O => 1 | S k => odd_dfact k * (2 * INR k + 1) end.
Fixpoint even_dfact (q : nat) : R := match q with O => 1 | S k => even_dfact k * (2 * INR (S k)) end.

Definition eta_coef (i q : nat) : R := / (even_dfact q * odd_dfact (q + i)).
Definition eta (i : nat) (Z : R) : R := PSeries (eta_coef i) Z.
