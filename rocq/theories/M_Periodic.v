(** Periodic problems: matching, bisection, eigenpair enumeration, eigenfunction boundary data.

    Models /repo/matslise/matslise/periodic.cpp:9-264. *)
From Coq Require Import String ZArith QArith Reals List Bool.
From Verif Require Import Base M_Sectors M_Core M_Search M_Eigen.
Import ListNotations.
Open Scope Z_scope.

(** ** Search part, for any scalar type.  The problem enters through the four numbers computed from
    matchingError(E): [err], [derr] = calculateMatchingError(matchingError(E).first), [tmin], [tmax] =
    matchingError(E).second.minCoeff() / maxCoeff(). *)
Section Search.
Context {T : Type} `{Scalar T} `{Conv T}.
Notation two := (sofZ 2).

(** periodic.cpp:52-55 same_sign. *)
Definition same_sign (a b : T) : bool := (slt a (sofZ 0) && slt b (sofZ 0)) || (slt (sofZ 0) a && slt (sofZ 0) b).

(** periodic.cpp:57-71 binarySearch (the variable mid is (eMin+eMax)/2 at the top of every turn). *)
Fixpoint binarySearch (fuel : nat) (eMin eMax : T) (f : T -> T) (eps fMin : T) : res T :=
  if slt (if slt (sabs eMin) (sofZ 1) then eps else smul eps (sabs eMin)) (ssub eMax eMin) then
    match fuel with
    | O => Fuel
    | S k =>
        let mid := sdiv (sadd eMin eMax) two in
        let fMid := f mid in
        if same_sign fMin fMid then binarySearch k mid eMax f eps fMid
        else binarySearch k eMin mid f eps fMin
    end
  else Ret (sdiv (sadd eMin eMax) two).

Variables err derr tmin tmax : T -> T.
Variable fuel : nat.

(** periodic.cpp:78-98 eigenvaluePair (the message printed to cout is not modelled). *)
Definition eigenvaluePair (Emin Emax eps : T) : res (T * T) :=
  let h := smul (sofQ (1 # 100)) (ssub Emax Emin) in
  let minError := err Emin in
  let fMin := sdiv (ssub (err (sadd Emin h)) minError) h in
  do mid <- binarySearch fuel Emin Emax derr eps fMin;
  let midError := err mid in
  if same_sign minError midError then Ret (mid, mid)
  else
    do a <- binarySearch fuel Emin mid err eps minError;
    do b <- binarySearch fuel mid Emax err eps midError;
    Ret (a, b).

(** periodic.cpp:136-145 findLow, findHigh. *)
Definition findLow (i : Z) (E : T) : T := sadd (ssub (tmin E) (sofZ i)) (sofZ 1).
Definition findHigh (i : Z) (E : T) : T := ssub (ssub (tmax E) (sofZ i)) (sofZ 1).
(** periodic.cpp:148-149 / 159-160 / 172-173: for (step = 1; cond(x); step *= 2) x (+/-)= step. *)
Fixpoint stepping (n : nat) (op : T -> T -> T) (cond : T -> bool) (step x : T) : res T :=
  if cond x then match n with O => Fuel | S k => stepping k op cond (smul step two) (op x step) end
  else Ret x.

(** periodic.cpp:112-134 addToResult (false: simple, true: double); the eigenfunctions are [boundaries]
    below. *)
Definition addToResult (eMin eMax : T) (iMin iMax : Z) (i : Z) (E : T) (isDouble : bool) : list (Z * T * bool) :=
  if (if isDouble then i + 1 <? iMin else i <? iMin) || (iMax <=? i) || slt E eMin || sle eMax E then []
  else [(i, E, isDouble)].

(** periodic.cpp:171-182, the for loop; [n] bounds the number of turns. *)
Fixpoint pairs_loop (n : nat) (eMin eMax : T) (iMin iMax : Z) (eps highest : T) (i : Z) (low : T) : res (list (Z * T * bool)) :=
  if i <=? iMax + 1 then
    match n with
    | O => Fuel
    | S k =>
        do low <- stepping fuel ssub (fun E => slt (sofZ 0) (findLow i E)) (sofZ 1) low;
        do low <- binarySearch fuel low highest (findLow i) eps (findLow i low);
        do high <- binarySearch fuel low highest (findHigh i) eps (findHigh i low);
        do p <- eigenvaluePair low high eps;
        let out :=
          if slt (ssub (snd p) (fst p)) eps
          then addToResult eMin eMax iMin iMax (i - 1) (sdiv (sadd (fst p) (snd p)) two) true
          else addToResult eMin eMax iMin iMax (i - 1) (fst p) false ++ addToResult eMin eMax iMin iMax i (snd p) false in
        do rest <- pairs_loop k eMin eMax iMin iMax eps highest (i + 2) low;
        Ret (out ++ rest)
    end
  else Ret [].

(** periodic.cpp:105-184 eigenpairsHelper(ms, eMin, eMax, iMin, iMax, eps); [antiperiodic] is the
    condition on K of line 152. *)
Definition eigenpairsHelper (antiperiodic : bool) (eMin eMax : T) (iMin iMax : Z) (eps : T) : res (list (Z * T * bool)) :=
  do highest <- stepping fuel sadd (fun E => slt (findHigh (iMax + 1) E) (sofZ 0)) (sofZ 1) eMax;
  let i := iMin - Z.rem iMin 2 + (if antiperiodic then 1 else 0) in
  let low := eMin in
  if i =? 0 then
    do low <- stepping fuel ssub (fun E => slt (sofZ 0) (findHigh i E)) (sofZ 1) low;
    do high <- binarySearch fuel low highest (findHigh i) eps (findHigh i low);
    do E <- binarySearch fuel low high err eps (err low);
    do rest <- pairs_loop fuel eMin eMax iMin iMax eps highest (i + 2) low;
    Ret (addToResult eMin eMax iMin iMax 0 E false ++ rest)
  else pairs_loop fuel eMin eMax iMin iMax eps highest i low.

(** (int) x, truncation *)
Definition itrunc (x : T) : option Z := if slt x (sofZ 0) then iceil x else ifloor x.
Definition eps8 : T := sofQ (1 # 100000000).
(** periodic.cpp:186-193, eigenvalues(eMin, eMax) *)
Definition periodic_eigenvalues (antiperiodic : bool) (eMin eMax : T) : res (list (Z * T * bool)) :=
  do a <- oint (itrunc (tmin eMin));
  do b <- oint (itrunc (tmax eMax));
  eigenpairsHelper antiperiodic eMin eMax (a - 1) (b + 1) eps8.
(** periodic.cpp:199-206: while (cond(x)) x *= 2 *)
Fixpoint doubling (n : nat) (cond : T -> bool) (x : T) : res T :=
  if cond x then match n with O => Fuel | S k => doubling k cond (smul x two) end else Ret x.
(** periodic.cpp:195-208, eigenvaluesByIndex(iMin, iMax) *)
Definition periodic_byIndex (antiperiodic : bool) (iMin iMax : Z) : res (list (Z * T * bool)) :=
  do eMin <- doubling fuel (fun E => slt (sofZ (Z.max (iMin - 2) 0)) (tmin E)) (sofZ (-1));
  do eMax <- doubling fuel (fun E => slt (tmax E) (sofZ (iMax + 2))) (sofZ 1);
  eigenpairsHelper antiperiodic eMin eMax iMin iMax eps8.
End Search.

(** ** Matching and boundary data (reals). *)
Open Scope R_scope.
(** Eigen::Matrix<Scalar,2,2>, entries (0,0) (0,1) (1,0) (1,1). *)
Record M22 := mkM { m00 : R; m01 : R; m10 : R; m11 : R }.
Definition Mid : M22 := mkM 1 0 0 1.
Definition mapply (M : M22) (u : R * R) : R * R := (m00 M * fst u + m01 M * snd u, m10 M * fst u + m11 M * snd u).

(** periodic.cpp:9-16 periodicInitialValue: the columns of K * [1 1; 1 -1], energy derivatives 0. *)
Definition initialColumn (K : M22) (u : R * R) : Y := let v := mapply K u in mkY (fst v) (snd v) 0 0.
Definition periodicInitialValue (K : M22) : list Y := [initialColumn K (1, 1); initialColumn K (1, -1)].

Definition ysub (a b : Y) : Y := mkY (y0 a - y0 b) (y1 a - y1 b) (e0 a - e0 b) (e1 a - e1 b).
Section Matching.
Variable calcT : sec -> R -> R -> bool -> Tm.
Variables (vm : R) (l : list sec) (m : Z) (lo hi : R) (K : M22).
(** periodic.cpp:26-41 matchingError: the columns of the mismatch, angle differences / PI. *)
Definition periodicMatching (E : R) (u : bool) : res (list Y * list R) :=
  do sm <- vget l m;
  do pl <- propagateN calcT vm l lo hi E (periodicInitialValue Mid) lo (smax sm) u;
  do pr <- propagateN calcT vm l lo hi E (periodicInitialValue K) hi (smax sm) u;
  Ret (map (fun p => ysub (fst p) (snd p)) (combine (fst pl) (fst pr)),
       map (fun p => (fst p - snd p) / PI) (combine (snd pl) (snd pr))).
End Matching.
(** periodic.cpp:43-50 calculateMatchingError; err(i, j): row i of column j. *)
Definition calculateMatchingError (err : list Y) : res (R * R) :=
  match err with
  | [a; b] => Ret (y0 a * y1 b - y0 b * y1 a,
                   e0 a * y1 b + y0 a * e1 b - e0 b * y1 a - y0 b * e1 a)
  | _ => UB "two columns"
  end.
(** y * c for a two-column y (util/y.h:125-131). *)
Definition ycomb (ys : list Y) (c : R * R) : Y :=
  match ys with
  | [a; b] => mkY (y0 a * fst c + y0 b * snd c) (y1 a * fst c + y1 b * snd c)
                  (e0 a * fst c + e0 b * snd c) (e1 a * fst c + e1 b * snd c)
  | _ => mkY 0 0 0 0
  end.
(** periodic.cpp:116-130: left and right boundary values of the eigenfunctions of one eigenvalue; [c] is
    the (real part of the) eigenvector computed by Eigen::EigenSolver for the eigenvalue of smallest
    modulus of the mismatch matrix (library code, not modelled: theorems quantify over it). *)
Definition boundaries (K : M22) (isDouble : bool) (c : R * R) : list (Y * Y) :=
  let l := periodicInitialValue Mid in
  let r := periodicInitialValue K in
  if isDouble then combine l r
  else [(ycomb l c, ycomb r c)].
(** periodic.cpp:250-262, eigenfunction(E): [evs] are the (squared modulus of the eigenvalue, real part of the eigenvector)
    pairs computed by Eigen::EigenSolver for the mismatch matrix. *)
Definition eigenfunction_boundaries (evs : list (R * (R * R))) : list (Y * Y) :=
  map (fun p => let b := mkY (fst (snd p)) (snd (snd p)) 0 0 in (b, b)) (filter (fun p => Rltb (fst p) (1 / 10000)) evs).
(** periodic.cpp:152: the condition on K that makes the search start at an odd index (the argument [antiperiodic] of
    eigenpairsHelper) *)
Definition K_antiperiodic (K : M22) : bool := Rltb 0 (m01 K) || (Reqb (m01 K) 0 && Rltb (m00 K) 0).
