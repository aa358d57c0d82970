(** Gauss-Legendre projection and the Sector constructor.

    Models /repo/matslise/util/legendre.h:37-89 (class Legendre, getCoefficients) for [D = Scalar]
    and /repo/matslise/matslise/sector.cpp:22-47.  The caches (coefficientsCache, polynomialCache)
    are not modelled: they store the value of a pure function. *)
From Coq Require Import String ZArith QArith List Bool.
From Verif Require Import Base M_LegendreData M_Sectors.
Import ListNotations.

Section Legendre.
Context {T : Type} `{Scalar T}.

(** util/legendre.h:39: [k = n + n % 2]. *)
Definition kof (n : nat) : nat := (n + n mod 2)%nat.

(** util/legendre.h:48: h = (b - a) / 2. *)
Definition leg_h (a b : T) : T := sdiv (ssub b a) (sofZ 2).

(** util/legendre.h:48: the points [(a + b) / 2 + nodes<Scalar, k> * h] at which f is called. *)
Definition eval_points (n : nat) (a b : T) : list T :=
  map (fun nd => sadd (sdiv (sadd a b) (sofZ 2)) (smul (sofQ nd) (leg_h a b))) (nodes (kof n)).
Definition leg_fs (n : nat) (f : T -> T) (a b : T) : list T := map f (eval_points n a b).

(** sum_j w_j f_j accumulated from the left starting with the first product (util/legendre.h:52-54). *)
Definition dot (ws fs : list T) : T :=
  match combine ws fs with
  | [] => sofZ 0
  | (w, f) :: r => fold_left (fun acc p => sadd acc (smul (fst p) (snd p))) r (smul w f)
  end.

Definition weight_row (n i : nat) : list T := map sofQ (nth i (weights (kof n)) []).

(** util/legendre.h:51-58 integrate<scaled>(i). *)
Definition integrate (scaled : bool) (n : nat) (f : T -> T) (a b : T) (i : nat) : T :=
  let r := dot (weight_row n i) (leg_fs n f a b) in
  if scaled then smul r (leg_h a b) else r.

(** H = 1, h, h*h, ... by repeated multiplication (util/legendre.h:63-66). *)
Fixpoint leg_pow (h : T) (i : nat) : T :=
  match i with O => sofZ 1 | S j => smul (leg_pow h j) h end.

(** util/legendre.h:60-69 getCoefficients. *)
Definition getCoefficients (n : nat) (f : T -> T) (a b : T) : list T :=
  map (fun i => sdiv (integrate false n f a b i) (leg_pow (leg_h a b) i)) (seq 0 n).

(** util/legendre.h:71-84 asPolynomial: polynomial[j] += (H * polynomials(i, j)) * coeffs[i],
    for i = 0 .. n-1, j <= i, H = (2h)^i; only n <= 16 is allowed (static_assert). *)
Definition leg_entry (i j : nat) : T := sofZ (nth j (nth i shifted_legendre []) 0%Z).
Definition asPolynomial (n : nat) (f : T -> T) (a b : T) : list T :=
  let coeffs := getCoefficients n f a b in
  map (fun j =>
         fold_left (fun acc i =>
           if (j <=? i)%nat then
             sadd acc (smul (smul (leg_pow (smul (sofZ 2) (leg_h a b)) i) (leg_entry i j)) (nth i coeffs (sofZ 0)))
           else acc) (seq 0 n) (sofZ 0))
      (seq 0 n).

(** matslise/sector.cpp:27-30 and 39-41: odd coefficients change sign. *)
Fixpoint flip_odd (odd : bool) (vs : list T) : list T :=
  match vs with
  | [] => []
  | v :: r => (if odd then smul v (sofZ (-1)) else v) :: flip_odd (negb odd) r
  end.

(** matslise/sector.cpp:22-34 Sector constructor: the fields derived from the potential are
    [vs]; t_coeff and t_coeff_h are functions of (h, vs) (calculateTCoeffs), so they are not stored. *)
Definition sector_vs (V : T -> T) (lo hi : T) (d : dir) : list T :=
  let vs := getCoefficients 16 V lo hi in
  match d with Dbwd => flip_odd false vs | _ => vs end.

(** matslise/matslise.h:246-248 Sector::compare(a, b): a.vs[0] < b.vs[0]. *)
Definition compare_vs (a b : sector T (list T)) : bool :=
  slt (nth 0 (spay a) (sofZ 0)) (nth 0 (spay b) (sofZ 0)).

(** matslise/sector.cpp:36-47 setDirection. *)
Definition setDirection (s : sector T (list T)) (nd : dir) : sector T (list T) :=
  if dir_eqb (sdir s) nd then s
  else
    let vs := if dir_eqb (sdir s) Dbwd || dir_eqb nd Dbwd then flip_odd false (spay s) else spay s in
    mkSector (smin s) (smax s) nd vs.
End Legendre.
