(** Half-range (symmetric) problems.

    Models /repo/matslise/matslise/halfrange.cpp:20-138, the default methods of AbstractMatslise
    (/repo/matslise/matslise.h:33-116) and /repo/matslise/matslise/abstract_matslise.cpp:8-20. *)
From Coq Require Import String ZArith QArith Reals List Bool.
From Verif Require Import Base M_Sectors M_Core M_Search.
Import ListNotations.
Open Scope Z_scope.

(** halfrange.cpp:99-117 mergeEigenvalues: even.begin()/odd.begin() advance through the two lists. *)
Section Merge.
Context {A : Type}.
Fixpoint merge (even : list (Z * A)) : list (Z * A) -> list (Z * A) :=
  fix go (odd : list (Z * A)) : list (Z * A) :=
    match even, odd with
    | [], [] => []
    | [], b :: odd' => (2 * fst b + 1, snd b) :: go odd'
    | a :: even', [] => (2 * fst a, snd a) :: merge even' []
    | a :: even', b :: odd' =>
        if fst b <? fst a then (2 * fst b + 1, snd b) :: go odd'
        else (2 * fst a, snd a) :: merge even' odd
    end.
End Merge.

(** halfrange.cpp:124-130 eigenvaluesByIndex; [query left Imin Imax]: ms->eigenvaluesByIndex(Imin, Imax,
    left, side); C++ division and remainder truncate. *)
Definition half_byIndex {A Side} (neumann dirichlet : Side) (query : Side -> Z -> Z -> res (list (Z * A))) (Imin Imax : Z) : res (list (Z * A)) :=
  do e <- query neumann (Z.quot Imin 2 + Z.rem Imin 2) (Z.quot Imax 2 + Z.rem Imax 2);
  do o <- query dirichlet (Z.quot Imin 2) (Z.quot Imax 2);
  Ret (merge e o).
(** halfrange.cpp:132-138 eigenvalues. *)
Definition half_eigenvalues {A Side T} (neumann dirichlet : Side) (query : Side -> T -> T -> res (list (Z * A))) (Emin Emax : T) : res (list (Z * A)) :=
  do e <- query neumann Emin Emax;
  do o <- query dirichlet Emin Emax;
  Ret (merge e o).

Section Eval.
Context {T : Type} `{Scalar T}.
(** sqrt(Scalar(.5)) *)
Variable rhalf : T.
(** the eigenfunction of the half problem: at a point, and on an array *)
Variable f1 : T -> res (T * T).
Variable fN : list T -> res (list (T * T)).
Variable even : bool.
Notation zero := (sofZ 0).
Notation m1 := (sofZ (-1)).

(** halfrange.cpp:47-53 operator()(Scalar). *)
Definition half_scalar (x : T) : res (T * T) :=
  do c <- f1 (if slt x zero then sopp x else x);
  let c := (smul (fst c) rhalf, smul (snd c) rhalf) in
  Ret (if slt x zero && negb even then (smul (fst c) m1, smul (snd c) m1) else c).

(** halfrange.cpp:58-61: is some x[i-1] > x[i]? *)
Fixpoint unsorted (xs : list T) : bool :=
  match xs with
  | x :: (y :: _) as r => slt y x || unsorted r
  | _ => false
  end.
(** halfrange.cpp:63-66 *)
Fixpoint negatives_from (i : Z) (xs : list T) (acc : Z) : Z :=
  match xs with
  | [] => acc
  | x :: r => negatives_from (i + 1) r (if slt x zero then i + 1 else acc)
  end.
Definition negatives (xs : list T) : Z := negatives_from 0 xs 0.

(** halfrange.cpp:55-89 operator()(Array).  xNeg[i] = -x[negatives-1-i] is the reversed, negated prefix;
    ys.row(negatives-1-i) = yNeg.row(i) * f with the derivative negated. *)
Definition half_array (xs : list T) : res (list (T * T)) :=
  if unsorted xs then Throw "Matslise::computeEigenfunction(): x has to be sorted"
  else
    let n := Z.to_nat (negatives xs) in
    let xNeg := map sopp (rev (firstn n xs)) in
    let xPos := skipn n xs in
    do yNeg <- fN xNeg;
    do yPos <- fN xPos;
    let f := smul (if even then sofZ 1 else m1) rhalf in
    Ret (map (fun y => (smul (fst y) f, smul (smul (snd y) f) m1)) (rev yNeg) ++
         map (fun y => (smul (fst y) rhalf, smul (snd y) rhalf)) yPos).
End Eval.

(** halfrange.cpp:21-29 isEven; [err left] = |get<0>(ms->matchingError(E, left, side))|. *)
Definition isEven {T} `{Scalar T} (errN errD : T) (index : Z) : bool :=
  if index =? -1 then slt errN errD else Z.rem index 2 =? 0.

(** ** Virtual dispatch (matslise.h:33-116).  A problem class overrides the two-sided version of a
    method, the one-sided version, or neither; the base versions call each other through the virtual
    table.  [two l r] / [one s] are the overriding bodies. *)
Section Dispatch.
Context {Side Res : Type}.
(** operator!= of Y (util/y.h:112-118): compares all components. *)
Variable neq : Side -> Side -> bool.
Variable two : option (Side -> Side -> res Res).
Variable one : option (Side -> res Res).
Fixpoint call_two (fuel : nat) (l r : Side) : res Res :=
  match two with
  | Some f => f l r
  | None =>
      match fuel with
      | O => Fuel
      | S k => if neq l r then Throw "Halfrange::checkSymmetry(), left and right sides have to be identical"
               else call_one k r
      end
  end
with call_one (fuel : nat) (s : Side) : res Res :=
  match one with
  | Some f => f s
  | None => match fuel with O => Fuel | S k => call_two k s s end
  end.
End Dispatch.

(** abstract_matslise.cpp:8-20 eigenpairsByIndex (not overridden by any class): eigenvaluesByIndex then
    eigenfunction(E, left, right, index) for each, both two-sided virtual calls. *)
Definition eigenpairsByIndex {A F Side} (byIndex : Side -> Side -> res (list (Z * A))) (ef : A -> Side -> Side -> Z -> res F)
    (left right : Side) : res (list (Z * A * F)) :=
  do evs <- byIndex left right;
  mapM (fun v => do f <- ef (snd v) left right (fst v); Ret (fst v, snd v, f)) evs.

(** operator!= of Y<Scalar> (util/y.h:112-118) over the reals. *)
Definition Yneq (a b : Y) : bool :=
  negb (Reqb (y0 a) (y0 b) && Reqb (y1 a) (y1 b) && Reqb (e0 a) (e0 b) && Reqb (e1 a) (e1 b)).
