(** Specification vocabulary for eigenfunctions, independent of the algorithms. *)
From Coq Require Import Reals ZArith List.
From Coquelicot Require Import Coquelicot.
From Verif Require Import Base M_Sectors M_Core M_Eigen.
Open Scope R_scope.

(** At [x], [U = (y, y', p, p')] satisfies -y'' + v y = E y, and p the equation obtained by
    differentiating it with respect to E: -p'' + v p = E p + y. *)
Definition solves_at (U : R -> Y) (v : R -> R) (E x : R) : Prop :=
  is_derive (fun t => y0 (U t)) x (y1 (U x)) /\ is_derive (fun t => y1 (U t)) x ((v x - E) * y0 (U x)) /\
  is_derive (fun t => e0 (U t)) x (e1 (U x)) /\ is_derive (fun t => e1 (U t)) x ((v x - E) * e0 (U x) - y0 (U x)).

(** [prop y c x]: data at c, propagated to x, is the exact solution on [a, b]. *)
Definition exact_propagator (prop : Y -> R -> R -> Y) (v : R -> R) (E a b : R) : Prop :=
  forall y c, a <= c <= b -> exists U : R -> Y, U c = y /\ (forall x, a <= x <= b -> solves_at U v E x /\ prop y c x = U x).

(** First component of the evaluated eigenfunction, as a function on R. *)
Definition ef_value (calcT : sec -> R -> R -> bool -> Tm) (vm : R) (l : list sec) (m : Z) (E lo hi : R) (left right : Y) (x : R) : R :=
  match eigenfunction_at calcT vm l m E lo hi left right x with Ret v => fst v | _ => 0 end.

(** Value at [x] computed from the stored steps of the sector at position [i] (matslise.cpp:258-262). *)
Definition from_sector (calcT : sec -> R -> R -> bool -> Tm) (vm : R) (l : list sec) (m : Z) (E : R) (left right : Y) (i : nat) (x : R) : res (R * R) :=
  do steps <- propagationSteps calcT vm l m E left right;
  ef_in (ef_prop calcT vm E) l steps (Z.of_nat i) x.

(** Continuity on a closed interval. *)
Definition cont_on (f : R -> R) (a b : R) : Prop :=
  forall x, a <= x <= b -> forall eps, 0 < eps -> exists d, 0 < d /\ forall t, a <= t <= b -> Rabs (t - x) < d -> Rabs (f t - f x) < eps.

(** At offset [d], the columns of the matrix solve the equation with potential [w], and the columns
    of its energy derivative the differentiated equation. *)
Definition T_solves_at (t : R -> Tm) (w : R -> R) (E d : R) : Prop :=
  is_derive (fun x => t00 (t x)) d (t10 (t d)) /\ is_derive (fun x => t10 (t x)) d ((w d - E) * t00 (t d)) /\
  is_derive (fun x => t01 (t x)) d (t11 (t d)) /\ is_derive (fun x => t11 (t x)) d ((w d - E) * t01 (t d)) /\
  is_derive (fun x => d00 (t x)) d (d10 (t d)) /\ is_derive (fun x => d10 (t x)) d ((w d - E) * d00 (t d) - t00 (t d)) /\
  is_derive (fun x => d01 (t x)) d (d11 (t d)) /\ is_derive (fun x => d11 (t x)) d ((w d - E) * d01 (t d) - t01 (t d)).
