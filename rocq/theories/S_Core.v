(** Specification vocabulary for propagation, independent of the algorithms: linear algebra on
    (y, y', dy/dE, dy'/dE), angles of a solution, determinants. *)
From Coq Require Import Reals List.
From Coquelicot Require Import Coquelicot.
From Verif Require Import Base M_Sectors M_Core.
Import ListNotations.
Open Scope R_scope.

(** [theta] is a (scaled) Pruefer angle of (y, y'): tan theta = s y / y', written without division. *)
Definition is_angle (s theta : R) (y : Y) : Prop := s * y0 y * cos theta = y1 y * sin theta.
(** (y, y') is not the zero vector. *)
Definition nonzero (y : Y) : Prop := y0 y <> 0 \/ y1 y <> 0.
Definition multiple_of_pi (x : R) : Prop := exists k : Z, x = IZR k * PI.

(** Determinant of the propagation matrix and of its energy derivative's trace with the adjugate
    (= the energy derivative of the determinant). *)
Definition det (t : Tm) : R := t00 t * t11 t - t01 t * t10 t.
Definition ddet (t : Tm) : R := d00 t * t11 t + t00 t * d11 t - d01 t * t10 t - t01 t * d10 t.

Definition yadd (a b : Y) : Y := mkY (y0 a + y0 b) (y1 a + y1 b) (e0 a + e0 b) (e1 a + e1 b).
(** f linear *)
Definition linearY (f : Y -> Y) : Prop :=
  (forall a b, f (yadd a b) = yadd (f a) (f b)) /\ (forall c a, f (yscale c a) = yscale c (f a)).

(** The stored energy derivatives are the derivatives at E of the energy-dependent quantities. *)
Definition Y_deriv (y : R -> Y) (E : R) : Prop :=
  is_derive (fun x => y0 (y x)) E (e0 (y E)) /\ is_derive (fun x => y1 (y x)) E (e1 (y E)).
Definition T_deriv (t : R -> Tm) (E : R) : Prop :=
  is_derive (fun x => t00 (t x)) E (d00 (t E)) /\ is_derive (fun x => t01 (t x)) E (d01 (t E)) /\
  is_derive (fun x => t10 (t x)) E (d10 (t E)) /\ is_derive (fun x => t11 (t x)) E (d11 (t E)).

(** Consecutive sectors from i to j, upwards or downwards. *)
Definition path (l : list sec) (i j : nat) : list sec :=
  if (i <=? j)%nat then firstn (j - i + 1) (skipn i l) else rev (firstn (i - j + 1) (skipn j l)).
(** The direction of the sector has been chosen. *)
Definition directed (s : sec) : Prop := sdir s = Dfwd \/ sdir s = Dbwd.
