(** Specification vocabulary for the Liouville transformation, independent of the algorithms. *)
From Coq Require Import Reals List.
From Coquelicot Require Import Coquelicot.
Import ListNotations.
Open Scope R_scope.

(** The intervals [fmin q, fmax q] of the list lie end to end from lo to hi. *)
Fixpoint tiles {A} (fmin fmax : A -> R) (lo hi : R) (l : list A) : Prop :=
  match l with [] => lo = hi | q :: t => fmin q = lo /\ tiles fmin fmax (fmax q) hi t end.

Definition nondecreasing_on (f : R -> R) (a b : R) : Prop := forall s t, a <= s -> s <= t -> t <= b -> f s <= f t.

(** -(p z')' + q z = E w z at r, where z1 = z'. *)
Definition sl_solves_at (p q w z z1 : R -> R) (E r : R) : Prop :=
  is_derive z r (z1 r) /\ is_derive (fun t => p t * z1 t) r (q r * z r - E * w r * z r).

(** -y'' + V y = E y at x, where y1 = y'. *)
Definition schroedinger_at (y y1 : R -> R) (V E x : R) : Prop :=
  is_derive y x (y1 x) /\ is_derive y1 x ((V - E) * y x).
