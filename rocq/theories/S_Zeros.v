(** Specification vocabulary for zero counting: the zeros of a function, continuous Pruefer angles, potentials resolved by
    their sectors, step matrices that are exact. *)
From Coq Require Import Reals ZArith.
From Coquelicot Require Import Coquelicot.
From Coq Require Import List.
From Verif Require Import Base M_Sectors M_Core S_Core S_Accuracy.
Import ListNotations.
Open Scope R_scope.

(** l lists, without repetition, the zeros of z in the set P *)
Definition lists_zeros (z : R -> R) (P : R -> Prop) (l : list R) : Prop :=
  NoDup l /\ forall x, In x l <-> P x /\ z x = 0.
(** phi is a continuous angle of the curve (v, u) on [p, q]: tan phi = u / v, written without division *)
Definition lift (u v : R -> R) (p q : R) (phi : R -> R) : Prop :=
  (forall x, continuous phi x) /\ forall x, p <= x <= q -> u x * cos (phi x) = v x * sin (phi x).

(** the mean of V over [p, q] is at most m, respectively equal to m (W is a primitive of V) *)
Definition mean_at_most (V : R -> R) (p q m : R) : Prop :=
  exists W, (forall x, p <= x <= q -> continuous W x) /\ (forall x, p < x < q -> is_derive W x (V x)) /\ W q - W p <= m * (q - p).
Definition mean_is (V : R -> R) (p q m : R) : Prop :=
  exists W, (forall x, p <= x <= q -> continuous W x) /\ (forall x, p < x < q -> is_derive W x (V x)) /\ W q - W p = m * (q - p).

(** the sector's constant is the mean of the potential on it, and the potential varies by less than (pi / 2h)^2 *)
Definition resolved (V : R -> R) (s : sec) : Prop :=
  mean_is V (smin s) (smax s) (v0 s) /\
  exists D, (forall x, smin s < x < smax s -> Rabs (V x - v0 s) <= D) /\ D * (sh s * sh s) < PI * PI / 4.

(** the point of the sector nearest to x, and its distance from the end where the sector starts *)
Definition reach (s : sec) (x : R) : R := Rmax (smin s) (Rmin x (smax s)).
Definition from_base (s : sec) (x : R) : R := match sdir s with Dfwd => reach s x - smin s | _ => smax s - reach s x end.

(** the step matrix of the sector towards x maps the value and slope of every solution at the sector's start to those at x *)
Definition exact_to (calcT : sec -> R -> R -> bool -> Tm) (V : R -> R) (E : R) (u : bool) (s : sec) (x : R) : Prop :=
  let T := calcT s E (from_base s x) u in
  det T = 1 /\ forall y y', solution V E (smin s) (smax s) [s] y y' ->
    match sdir s with
    | Dfwd => t00 T * y (smin s) + t01 T * y' (smin s) = y (reach s x) /\ t10 T * y (smin s) + t11 T * y' (smin s) = y' (reach s x)
    | _ => t00 T * y (smax s) + t01 T * - y' (smax s) = y (reach s x) /\ t10 T * y (smax s) + t11 T * - y' (smax s) = - y' (reach s x)
    end.

(** a target strictly inside a sector whose mean potential is below E: the mean of the potential up to it is at most E as well *)
Definition stretch_ok (V : R -> R) (E : R) (s : sec) (x : R) : Prop :=
  smin s < x < smax s -> v0 s < E ->
  match sdir s with Dfwd => mean_at_most V (smin s) x E | _ => mean_at_most V x (smax s) E end.

(** the solution with value y and slope y' is not the zero solution *)
Definition nontrivial (y y' : R -> R) (lo hi : R) : Prop := forall x, lo <= x <= hi -> y x <> 0 \/ y' x <> 0.

(** what zero counting needs of the sectors crossed on the way from a to b *)
Definition counting_ok (calcT : sec -> R -> R -> bool -> Tm) (V : R -> R) (E : R) (u : bool) (a b : R) (s : sec) : Prop :=
  directed s /\ smin s < smax s /\ resolved V s /\ exact_to calcT V E u s a /\ exact_to calcT V E u s b /\ stretch_ok V E s a /\ stretch_ok V E s b.

(** the potential is constant on the sector *)
Definition constant_on (V : R -> R) (s : sec) : Prop :=
  (forall k, (1 <= k <= 15)%nat -> nth k (spay s) 0 = 0) /\ forall x, smin s < x < smax s -> V x = v0 s.
(** x is not closer than 10^-12 to an end of the sector, unless the part of the sector before x is empty or the whole sector *)
Definition reachable (s : sec) (x : R) : Prop :=
  from_base s x = 0 \/ / 10 ^ 12 < from_base s x /\ (from_base s x = sh s \/ from_base s x < sh s - / 10 ^ 12).

(** E is an eigenvalue of index k of the exact problem: a nontrivial solution satisfies both boundary conditions and has exactly
    k zeros strictly inside the interval *)
Definition eigen_index (V : R -> R) (lo hi : R) (l : list sec) (left right : Y) (k : Z) (E : R) : Prop :=
  exists z z' zs, solution V E lo hi l z z' /\ nontrivial z z' lo hi /\ z lo * y1 left = z' lo * y0 left /\ z hi * y1 right = z' hi * y0 right /\
    lists_zeros z (fun x => lo < x < hi) zs /\ k = Z.of_nat (length zs).
(** the problem at energy E: the equation has solutions with the boundary values, and the steps taken by the matching towards the
    point c are exact *)
Definition exact_at (calcT : sec -> R -> R -> bool -> Tm) (V : R -> R) (lo hi : R) (l : list sec) (c : R) (left right : Y) (E : R) : Prop :=
  (forall s, In s l -> counting_ok calcT V E true lo c s) /\ (forall s, In s l -> counting_ok calcT V E true hi c s) /\
  (exists z z', solution V E lo hi l z z' /\ z lo = y0 left /\ z' lo = y1 left) /\
  (exists z z', solution V E lo hi l z z' /\ z hi = y0 right /\ z' hi = y1 right).
