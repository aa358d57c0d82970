(** Specification of the shifted Legendre polynomials on [0,1] and of the exact projection. *)
From Coq Require Import QArith Qreals Reals.
From Coquelicot Require Import Coquelicot.
From Coq Require Import List.
From Verif Require Import S_Poly.
Import ListNotations.

(** coefficient lists over Q, constant first *)
Fixpoint qadd (p q : list Q) : list Q :=
  match p, q with [], q => q | p, [] => p | a :: p', b :: q' => Qred (a + b) :: qadd p' q' end.
Definition qscale (c : Q) (p : list Q) : list Q := map (fun a => Qred (c * a)) p.
Definition qshift (p : list Q) : list Q := 0%Q :: p.

(** P_0 = 1, P_1 = 2t - 1, (i+1) P_{i+1} = (2i+1)(2t-1) P_i - i P_{i-1}: the pair (P_{i-1}, P_i). *)
Fixpoint leg_pair (i : nat) : list Q * list Q :=
  match i with
  | O => ([], [1%Q])
  | S j =>
    let (p, c) := leg_pair j in
    let n := inject_Z (Z.of_nat j) in
    (c, qscale (1 / (n + 1)) (qadd (qscale (2 * n + 1) (qadd (qscale 2 (qshift c)) (qscale (-1) c))) (qscale (- n) p)))
  end.
Definition shifted_leg (i : nat) : list Q := snd (leg_pair i).

Open Scope R_scope.
(** the polynomial function *)
Definition legendre_fun (i : nat) (t : R) : R := polyval (map Q2R (shifted_leg i)) t.

(** i-th coefficient of the orthogonal projection of g on [0,1] *)
Definition projection (i : nat) (g : R -> R) : R := INR (2 * i + 1) * RInt (fun t => g t * legendre_fun i t) 0 1.

(** sum of the absolute values of the coefficients *)
Definition norm1 (c : list R) : R := sumR (map Rabs c).
