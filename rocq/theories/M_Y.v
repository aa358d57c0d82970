(** The arithmetic of value / energy-derivative blocks: the remaining operators of /repo/matslise/util/y.h:60-137, for
    n components and r columns, with entries in an arbitrary field (exact arithmetic). *)
From Coq Require Import Reals.
From mathcomp Require Import all_ssreflect ssralg matrix.
From Verif Require Import Base M_Matscs.
Set Implicit Arguments.
Unset Strict Implicit.
Unset Printing Implicit Defensive.
Import GRing.Theory.
Open Scope ring_scope.

Section Y.
Context {F : fieldType} {n : nat}.
Notation CY := (@CY F n).

(** y.h:64-66 operator-() : -data *)
Definition cneg {r} (y : CY r) : CY r := mkCY (- cy y) (- ce y).
(** y.h:97-104 operator*(Scalar), operator*=(Scalar) : data * f *)
Definition cscale {r} (y : CY r) (f : F) : CY r := mkCY (f *: cy y) (f *: ce y).
(** y.h:106-109 operator*=(Matrix) and y.h:123-129 operator*(Y, Matrix) : data * M *)
Definition cmulr {r c} (y : CY r) (M : 'M[F]_(r, c)) : CY c := mkCY (cy y *m M) (ce y *m M).
(** y.h:119-121 col(j) : data.col(j) *)
Definition ccol {r} (y : CY r) (j : 'I_r) : CY 1 := mkCY (col j (cy y)) (col j (ce y)).
(** y.h:111-117 operator==, operator!= : all 4 n r entries compared *)
Definition ceq {r} (a b : CY r) : bool := (cy a == cy b) && (ce a == ce b).
Definition cneq {r} (a b : CY r) : bool := ~~ ceq a b.
(** y.h:68-74 block(d): the rows d n .. (d + 1) n - 1 of data; d = None, dX, dE, dXdE *)
Inductive ydiff := YNone | YdX | YdE | YdXdE.
Definition cblock {r} (d : ydiff) (y : CY r) : 'M[F]_(n, r) :=
  match d with
  | YNone => usubmx (cy y) | YdX => dsubmx (cy y) | YdE => usubmx (ce y) | YdXdE => dsubmx (ce y)
  end.
(** y.h:21-31 Dirichlet(N), Neumann(N) : the constructor sets data to zero *)
Definition cDirichlet : CY n := mkCY (col_mx 0 1%:M) 0.
Definition cNeumann : CY n := mkCY (col_mx 1%:M 0) 0.
End Y.

(** y.h:131-137 operator*(Matrix, Y) : kroneckerProduct(Identity(4,4), M) * data, for M with m rows *)
Definition kron2 {F : fieldType} {m n : nat} (M : 'M[F]_(m, n)) : 'M[F]_(m + m, n + n) := block_mx M 0 0 M.
Definition cmull {F : fieldType} {m n r : nat} (M : 'M[F]_(m, n)) (y : @CY F n r) : @CY F m r :=
  mkCY (kron2 M *m cy y) (kron2 M *m ce y).
