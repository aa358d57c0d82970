(** Eigenfunctions of Matslise: stored steps, pointwise and array evaluation.

    Models /repo/matslise/matslise/matslise.cpp:192-303. *)
From Coq Require Import String ZArith Reals List Bool.
From Verif Require Import Base M_Sectors M_Core.
Import ListNotations.
Open Scope Z_scope.

(** ** Evaluation, for any scalar type.  [St]: the stored step values (Y<Scalar>), [prop s y a x] =
    sector.propagate<false>(E, y, a, x).y(). *)
Section Eval.
Context {T : Type} `{Scalar T} {P St A : Type}.
Notation sec := (sector T P).
Variable prop : sec -> St -> T -> T -> A.
Variable zero : A.
Variables (secs : list sec) (lo hi : T) (steps : list St).

(** matslise.cpp:258-262 and 285-291: value at x computed in the sector at position [i]. *)
Definition ef_in (i : Z) (x : T) : res A :=
  do s <- vget secs i;
  if dir_eqb (sdir s) Dfwd then do y <- vget steps i; Ret (prop s y (smin s) x)
  else do y <- vget steps (i + 1); Ret (prop s y (smax s) x).

(** matslise.cpp:251-263 operator()(Scalar). *)
Definition ef_scalar (x : T) : res A :=
  if slt x lo || slt hi x then Ret zero
  else
    do i <- findSectorIt (length secs) secs x 0 (Z.of_nat (length secs));
    ef_in i x.

(** matslise.cpp:265-296 operator()(Array), the loop; [i] is the position of the iterator [sector]. *)
Fixpoint ef_array_loop (i : Z) (xs : list T) : res (list A) :=
  match xs with
  | [] => Ret []
  | x :: r =>
      if slt x lo || slt hi x then do ys <- ef_array_loop i r; Ret (zero :: ys)
      else
        do s <- vget secs i;
        do j <- (if slt x (smin s) then findSectorIt (length secs) secs x 0 i
                 else if slt (smax s) x then findSectorIt (length secs) secs x (i + 1) (Z.of_nat (length secs))
                 else Ret i);
        do y <- ef_in j x;
        do ys <- ef_array_loop j r;
        Ret (y :: ys)
  end.
Definition ef_array (xs : list T) : res (list A) := ef_array_loop 0 xs.
End Eval.

(** ** The stored steps (reals). *)
Open Scope R_scope.
Section Steps.
Variable calcT : sec -> R -> R -> bool -> Tm.
Variable vm : R.
Variables (l : list sec) (m : Z) (E : R).

(** matslise.cpp:197-200: ys[1..matchIndex+1]; [k] is the loop index, [n] the remaining turns. *)
Fixpoint steps_left (n : nat) (k : Z) (y : Y) : res (list Y) :=
  match n with
  | O => Ret []
  | S n' =>
      do s <- vget l k;
      let y' := sprop_y calcT vm s E y (smin s) (smax s) true in
      do r <- steps_left n' (k + 1) y';
      Ret (y' :: r)
  end.
(** matslise.cpp:204-207: ys[k], ys[k-1], .. (n of them), in that order. *)
Fixpoint steps_right (n : nat) (k : Z) (y : Y) : res (list Y) :=
  match n with
  | O => Ret []
  | S n' =>
      do s <- vget l k;
      let y' := sprop_y calcT vm s E y (smax s) (smin s) true in
      do r <- steps_right n' (k - 1) y';
      Ret (y' :: r)
  end.
(** matslise.cpp:210-211 *)
Definition ratio (yl yr : Y) : R :=
  if Rltb (Rabs (y1 yr) + Rabs (y1 yl)) (Rabs (y0 yr) + Rabs (y0 yl)) then y0 yl / y0 yr else y1 yl / y1 yr.
(** matslise.cpp:212-219 *)
Definition norm2 (yl yr : Y) (s : R) : R :=
  e0 yl * y1 yl - e1 yl * y0 yl - s * s * (e0 yr * y1 yr - e1 yr * y0 yr).
Definition norm_of (yl yr : Y) (s : R) : R := if Rltb 0 (norm2 yl yr s) then sqrt (norm2 yl yr s) else 1.

(** matslise.cpp:192-226 propagationSteps.  The vector ys is represented by its two parts:
    ys[0..matchIndex] and ys[matchIndex+1..sectorCount] (the slot matchIndex+1 first holds yl, then yr). *)
Definition propagationSteps (left right : Y) : res (list Y) :=
  let n := Z.of_nat (length l) in
  do lefts <- steps_left (Z.to_nat (m + 1)) 0 left;
  let yl := last lefts left in
  do rights <- steps_right (Z.to_nat (n - 1 - m)) (n - 1) right;
  let yr := last rights right in
  let s := ratio yl yr in
  let norm := norm_of yl yr s in
  Ret (map (yscale (1 / norm)) (firstn (Z.to_nat (m + 1)) (left :: lefts)) ++
       map (yscale (s / norm)) (rev (right :: rights))).

(** (value, derivative) of the propagated step. *)
Definition ef_prop (s : sec) (y : Y) (a x : R) : R * R :=
  let r := sprop_y calcT vm s E y a x true in (y0 r, y1 r).

(** matslise.cpp:301-304 Matslise::eigenfunction followed by operator(). *)
Definition eigenfunction_at (lo hi : R) (left right : Y) (x : R) : res (R * R) :=
  do steps <- propagationSteps left right;
  ef_scalar ef_prop (0, 0) l lo hi steps x.
Definition eigenfunction_on (lo hi : R) (left right : Y) (xs : list R) : res (list (R * R)) :=
  do steps <- propagationSteps left right;
  ef_array ef_prop (0, 0) l lo hi steps xs.
End Steps.
