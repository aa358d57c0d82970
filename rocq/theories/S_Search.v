(** Specification vocabulary for the eigenvalue search.  [F E] stands for (angle difference)/pi at
    energy E; an energy E with [F E = IZR k] is an eigenvalue of index k. *)
From Coq Require Import ZArith Reals List Lra.
From Coq Require Import Ranalysis.
Open Scope R_scope.

Definition nonint (x : R) : Prop := forall k : Z, x <> IZR k.
Definition strictly_increasing_on (F : R -> R) (lo hi : R) : Prop :=
  forall x y, lo <= x -> x < y -> y <= hi -> F x < F y.
(** F rises through every integer: once F has reached k it stays above k.  Weaker than increasing; it is what Sturm's theory
    gives for the (scaled) angle difference, see T_Sturm. *)
Definition rises_through_integers (F : R -> R) (lo hi : R) : Prop :=
  forall k x y, lo <= x -> x < y -> y <= hi -> IZR k <= F x -> IZR k < F y.
Definition continuous_on (F : R -> R) (lo hi : R) : Prop := forall x, lo <= x <= hi -> continuity_pt F x.
Definition eigenvalue_of (F : R -> R) (k : Z) (E : R) : Prop := F E = IZR k.
(** Distinct eigenvalues inside [lo,hi] are at least [g] apart. *)
Definition separated (F : R -> R) (lo hi g : R) : Prop :=
  forall j k x y, lo < x -> x < y -> y < hi -> eigenvalue_of F j x -> eigenvalue_of F k y -> g <= y - x.
(** The value fits in a 32-bit int after rounding up. *)
Definition fits_int (x : R) : Prop := -2147483649 < x <= 2147483647.
