(** Specification for the step matrices of coupled problems. *)
From Coq Require Import Reals.
From Coquelicot Require Import Coquelicot.
From Coq Require Import List.
From Verif Require Import S_Legendre S_Formulas.
Import ListNotations.
Open Scope R_scope.

(** the (r, c) entry of the product v_{k1} v_{k2} ... of n x n matrices *)
Fixpoint word_val (n : nat) (v : nat -> nat -> nat -> R) (w : list nat) (r c : nat) : R :=
  match w with
  | [] => if Nat.eqb r c then 1 else 0
  | k :: t => rsum n (fun j => v k r j * word_val n v t j c)
  end.
(** a matrix monomial a * delta^i * h^j * v_{k1} v_{k2} ..., its order in the step variables *)
Record wmonomial := mkWMono { w_coef : R; w_delta : nat; w_h : nat; w_word : list nat }.
Definition worder (m : wmonomial) : nat := (w_delta m + w_h m)%nat.
Definition wmono_val (n : nat) (v : nat -> nat -> nat -> R) (h delta : R) (m : wmonomial) (r c : nat) : R :=
  w_coef m * delta ^ w_delta m * h ^ w_h m * word_val n v (w_word m) r c.
Definition wpoly_val (n : nat) (v : nat -> nat -> nat -> R) (h delta : R) (p : list wmonomial) (r c : nat) : R :=
  fold_right (fun m acc => wmono_val n v h delta m r c + acc) 0 p.
(** the potential matrix at distance delta from the start of the sector: sum_k v_k h^k L_k(delta/h), k <= N *)
Definition mat_potential (N : nat) (v : nat -> nat -> nat -> R) (h delta : R) (r s : nat) : R :=
  rsum (S N) (fun k => v k r s * h ^ k * legendre_fun k (delta / h)).
Definition diagonal (n : nat) (A : nat -> nat -> R) : Prop := forall a b, (a < n)%nat -> (b < n)%nat -> a <> b -> A a b = 0.
Definition orthogonal (n : nat) (Q : nat -> nat -> R) : Prop := forall a b, (a < n)%nat -> (b < n)%nat ->
  rsum n (fun k => Q k a * Q k b) = (if Nat.eqb a b then 1 else 0) /\ rsum n (fun k => Q a k * Q b k) = (if Nat.eqb a b then 1 else 0).
(** Q^T A Q *)
Definition conj (n : nat) (Q A : nat -> nat -> R) (a b : nat) : R := rsum n (fun j => rsum n (fun k => Q j a * A j k * Q k b)).
(** Q A Q^T *)
Definition unconj (n : nat) (Q A : nat -> nat -> R) (a b : nat) : R := rsum n (fun j => rsum n (fun k => Q a j * A j k * Q b k)).
