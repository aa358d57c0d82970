(** Specification for the propagator tables: polynomials in the step and the potential coefficients,
    their order in the step, the potential of a sector, the exact eta functions. *)
From Coq Require Import Reals.
From Coquelicot Require Import Coquelicot.
From Coq Require Import List.
From Verif Require Import S_Eta S_Legendre M_Core.
Import ListNotations.
Open Scope R_scope.

(** a monomial c * delta^a * h^b * v_{k1} * ... * v_{kn} *)
Record monomial := mkMono { m_coef : R; m_delta : nat; m_h : nat; m_vs : list nat }.
Definition mono_val (v : nat -> R) (h delta : R) (m : monomial) : R :=
  m_coef m * delta ^ m_delta m * h ^ m_h m * fold_right (fun k acc => v k * acc) 1 (m_vs m).
(** its total order in the step variables delta and h *)
Definition order (m : monomial) : nat := (m_delta m + m_h m)%nat.
Definition poly_val (v : nat -> R) (h delta : R) (p : list monomial) : R :=
  fold_right (fun m acc => mono_val v h delta m + acc) 0 p.

Fixpoint rsum (n : nat) (f : nat -> R) : R := match n with O => 0 | S k => rsum k f + f k end.

(** the potential of the sector at distance delta from its start: sum_k v_k h^k L_k(delta/h), k <= n *)
Definition sector_potential (n : nat) (v : nat -> R) (h delta : R) : R :=
  rsum (S n) (fun k => v k * h ^ k * legendre_fun k (delta / h)).

(** the eta functions in the format calculateEta returns them *)
Definition eta_exact (n : nat) (z : R) : list R := map (fun i => eta i z) (seq 0 n).


(** entry q of a propagator (0: row 0 column 0, 1: row 0 column 1, 2: row 1 column 0, 3: row 1 column 1),
    and of its derivative with respect to the energy *)
Definition tent (q : nat) (t : Tm) : R := match q with 0 => t00 t | 1 => t01 t | 2 => t10 t | _ => t11 t end%nat.
Definition dent (q : nat) (t : Tm) : R := match q with 0 => d00 t | 1 => d01 t | 2 => d10 t | _ => d11 t end%nat.

(** z (with derivative z') solves z'' = (V - E) z on [0, h] *)
Definition solves (V : R -> R) (E h : R) (z z' : R -> R) : Prop :=
  forall x, 0 <= x <= h -> is_derive z x (z' x) /\ is_derive z' x ((V x - E) * z x).
