(** Polynomial<Scalar, degree> and horner.

    Models /repo/matslise/util/polynomial.h and /repo/matslise/util/horner.h over the reals
    (simplification: exact arithmetic).  A Polynomial<Scalar, degree> is the list of its
    degree+1 coefficients, constant first (polynomial.h:15). *)
From Coq Require Import Reals List Lia.
From Verif Require Import M_Sectors.
Import ListNotations.
Open Scope R_scope.

Definition poly := list R.
Definition coef (p : poly) (i : nat) : R := nth i p 0.
Definition degree (p : poly) : nat := (length p - 1)%nat.

(** polynomial.h:24-26 Polynomial(const Scalar&) (degree n). *)
Definition pconst (n : nat) (v : R) : poly := v :: repeat 0 n.

(** polynomial.h:28-36 initializer_list constructor: missing coefficients are 0. *)
Definition pinit (n : nat) (l : list R) : poly := l ++ repeat 0 (n + 1 - length l).

(** polynomial.h:42-48 widening constructor: coefficients copied, the rest zero. *)
Definition widen (n : nat) (p : poly) : poly := p ++ repeat 0 (n + 1 - length p).

(** polynomial.h:50-54 POLY_INPLACE_OPERATOR(+=, od, ...): topRows<od+1> += other (od <= degree). *)
Fixpoint top_add (p q : poly) : poly :=
  match p, q with a :: p', b :: q' => (a + b) :: top_add p' q' | p, [] => p | [], _ => [] end.
Fixpoint top_sub (p q : poly) : poly :=
  match p, q with a :: p', b :: q' => (a - b) :: top_sub p' q' | p, [] => p | [], _ => [] end.

(** polynomial.h:206-216 POLY_FRIEND_OPERATOR: widen the left to the maximal degree, then op=. *)
Definition padd (p q : poly) : poly := top_add (widen (Nat.max (degree p) (degree q)) p) q.
Definition psub (p q : poly) : poly := top_sub (widen (Nat.max (degree p) (degree q)) p) q.

(** polynomial.h:87-99 scalar + and - act on topRows<1>, i.e. on the constant coefficient. *)
Definition padds (p : poly) (c : R) : poly := top_add p [c].
Definition psubs (p : poly) (c : R) : poly := top_sub p [c].
(** polynomial.h:101-105 scalar * and / act on all coefficients. *)
Definition pmuls (p : poly) (c : R) : poly := map (fun a => a * c) p.
Definition pdivs (p : poly) (c : R) : poly := map (fun a => a / c) p.
(** polynomial.h:107-109 unary minus. *)
Definition popp (p : poly) : poly := map Ropp p.
(** polynomial.h:97-99: c - p = -p + c. *)
Definition srsub (c : R) (p : poly) : poly := padds (popp p) c.
(** polynomial.h:81-85: left - right = -right + left for left of lower degree. *)
Definition prsub (left right : poly) : poly := top_add (popp right) left.

(** polynomial.h:115-123 operator*: two nested loops accumulating r[i + j] += a[i] * b[j]. *)
Definition accum (r : poly) (k : nat) (v : R) : poly := set_nth r k (coef r k + v).
Definition pmul (p q : poly) : poly :=
  fold_left (fun r i =>
    fold_left (fun r j => accum r (i + j) (coef p i * coef q j)) (seq 0 (degree q + 1)) r)
    (seq 0 (degree p + 1)) (repeat 0 (degree p + degree q + 1)).

(** polynomial.h:141-146 operator()(x) and horner.h:2-8: r = c[n-1]; for i = n-2 .. 0: r = r*x + c[i]. *)
Fixpoint hloop (c : nat -> R) (x : R) (i : nat) (r : R) : R :=
  match i with O => r | S j => hloop c x j (r * x + c j) end.
Definition peval (p : poly) (x : R) : R := hloop (coef p) x (degree p) (coef p (degree p)).

(** polynomial.h:153-157: f = c[i]; for (j = i; j > i - d; --j) f *= j  (d factors i, i-1, .., i-d+1). *)
Fixpoint fall_mul (f : R) (i d : nat) : R :=
  match d with O => f | S d' => fall_mul (f * INR i) (i - 1) d' end.

(** polynomial.h:148-159 derivative<d>(): r[i - d] = fall_mul c[i] i d for i = d .. degree
    (the type Polynomial<degree - d> requires d <= degree). *)
Definition pderiv (d : nat) (p : poly) : poly :=
  map (fun i => fall_mul (coef p i) i d) (seq d (length p - d)).

(** polynomial.h:161-172 derivative<d>(x): r = 0; for i = degree .. d: r = r*x + f_i. *)
Definition pderiv_at (d : nat) (p : poly) (x : R) : R :=
  hloop (fun k => fall_mul (coef p (k + d)) (k + d) d) x (length p - d) 0.

(** polynomial.h:174-180 integral(): r[i + 1] = c[i] / (i + 1). *)
Definition pint (p : poly) : poly := 0 :: map (fun i => coef p i / INR (i + 1)) (seq 0 (length p)).

(** polynomial.h:182-189 integral(x). *)
Definition pint_at (p : poly) (x : R) : R :=
  hloop (fun i => coef p i / INR (i + 1)) x (length p) 0 * x.

(** polynomial.h:125-127 operator==. *)
Definition peqb (p q : poly) : Prop := Forall2 eq p q.
