(** Eigenvalue search: Newton polishing, bisection queue, energy bracket.

    Models /repo/matslise/matslise/matslise.cpp:60-79, 90-190 for any scalar type.  The
    problem enters only through [me E use_h] = Matslise::matchingError(E, left, right, use_h)
    (matslise.cpp:47-58; error, its energy derivative, angle difference), an arbitrary function here. *)
From Coq Require Import String ZArith QArith Reals List Bool.
From Verif Require Import Base.
Import ListNotations.
Open Scope Z_scope.

(** std::abs, std::isnan, constants<Scalar>::PI and the conversions (int) floor/ceil/round(x); None: the
    value is NaN or does not fit in int, where the C++ conversion is undefined behaviour. *)
Class Conv (T : Type) := {
  sabs : T -> T;
  snan : T -> bool;
  spi : T;
  ifloor : T -> option Z;
  iceil : T -> option Z;
  iround : T -> option Z
}.
Definition int_ok (z : Z) : bool := (-2147483648 <=? z) && (z <=? 2147483647).
Definition toint (z : Z) : option Z := if int_ok z then Some z else None.
Definition Rfloor (x : R) : Z := Int_part x.
Definition Rceil (x : R) : Z := - Int_part (- x).
(** std::round: half away from zero. *)
Definition Rround (x : R) : Z := if Rleb 0 x then Int_part (x + / 2) else - Int_part (- x + / 2).
#[export] Instance Conv_R : Conv R := {
  sabs := Rabs; snan := fun _ => false; spi := PI;
  ifloor := fun x => toint (Rfloor x); iceil := fun x => toint (Rceil x); iround := fun x => toint (Rround x)
}.
Definition oint (o : option Z) : res Z := match o with Some z => Ret z | None => UB "float to int conversion" end.

Section Search.
Context {T : Type} `{Scalar T} `{Conv T}.
Variable me : T -> bool -> T * T * T.
(** Matslise::tolerance *)
Variable tol : T.

(** matslise.cpp:63-69: the do-while loop; returns E, the last angle and the list of energies at
    which the matching error was evaluated (ghost). *)
Fixpoint newton_loop (fuel : nat) (i : Z) (E : T) (use_h : bool) : res (T * T * list T) :=
  match fuel with
  | O => Fuel
  | S f =>
      let '(error, derror, theta) := me E use_h in
      let adjust := sdiv error derror in
      let E' := ssub E adjust in
      let i := i + 1 in
      if (i <? 20) && slt tol (sabs adjust) then
        do r <- newton_loop f i E' use_h; Ret (fst r, E :: snd r)
      else Ret (E', theta, [E])
  end.
(** matslise.cpp:60-79 newtonIteration. *)
Definition newton (E : T) (use_h : bool) : res (Z * T) :=
  do r <- newton_loop 20 0 E use_h;
  let '(E', theta, _) := r in
  do index <- oint (iround (sdiv theta spi));
  Ret (if index <? 0 then 0 else index, E').

(** theta / PI at E, high order (matslise.cpp:101-102, 121). *)
Definition ang (E : T) : T := sdiv (snd (me E true)) spi.

(** An interval waiting in the queue: (a, ta, b, tb, depth). *)
Record item := mkItem { ia_ : T; ta_ : T; ib_ : T; tb_ : T; dep_ : Z }.

(** One turn of the while loop, matslise.cpp:108-135.  Result: what is appended to the queue, the
    energies handed to newtonIteration together with the interval (ghost), and the probed c. *)
Inductive action := Skip | Leaf (c : T) | Drop (c : T) | Push (c : T) (l : list item) | LeafAt (c : T).
Definition step (Imin Imax : Z) (it : item) : res action :=
  let '(mkItem a ta b tb depth) := it in
  do ia <- oint (iceil ta);
  do ib <- oint (iceil tb);
  if sle tb ta || (ia =? ib) || (ib <=? Imin) || (Imax <=? ia) then Ret Skip
  else
    let c := if (ia + 1 <? ib) || slt (ssub tb ta) (sofQ (1 # 100000)) || (Z.rem depth 2 =? 0)
             then smul (sofQ (1 # 2)) (sadd a b)
             else sdiv (ssub (smul (ssub tb (sofZ ia)) a) (smul (ssub ta (sofZ ia)) b)) (ssub tb ta) in
    if (slt (ssub tb ta) (sofQ (1 # 100)) && (3 <? depth)) || (30 <? depth) then Ret (Leaf c)
    else
      let tc := ang c in
      if snan tc then Ret (Drop c)
      else if ia + 1 <? ib then Ret (Push c [mkItem a ta c tc (1 + depth); mkItem c tc b tb (1 + depth)])
      else if slt (sabs (ssub tc (sofZ ia))) (sofQ (1 # 100000000)) then Ret (LeafAt c)
      else if slt (smul (ssub ta (sofZ ia)) (ssub tc (sofZ ia))) (sofZ 0) then Ret (Push c [mkItem a ta c tc (depth + 1)])
      else Ret (Push c [mkItem c tc b tb (depth + 1)]).

(** A newtonIteration call site: the interval and the starting energy. *)
Record leaf := mkLeaf { lit : item; lc : T }.

(** matslise.cpp:107-136, the queue loop (FIFO).  Newton is applied afterwards to the collected
    leaves in the same order (simplification: it is a pure function of c).  The second component
    (ghost) lists the energies at which an interval was cut (or dropped), in order. *)
Fixpoint bisect (fuel : nat) (Imin Imax : Z) (queue : list item) : res (list leaf * list T) :=
  match queue with
  | [] => Ret ([], [])
  | it :: rest =>
      match fuel with
      | O => Fuel
      | S f =>
          do act <- step Imin Imax it;
          match act with
          | Skip => bisect f Imin Imax rest
          | Leaf c => do r <- bisect f Imin Imax rest; Ret (mkLeaf it c :: fst r, snd r)
          | Drop c => do r <- bisect f Imin Imax rest; Ret (fst r, c :: snd r)
          | LeafAt c => do r <- bisect f Imin Imax rest; Ret (mkLeaf it c :: fst r, snd r)
          | Push c l => do r <- bisect f Imin Imax (rest ++ l); Ret (fst r, c :: snd r)
          end
      end
  end.

(** operator< of std::pair<int, Scalar>, and std::sort with it (any stable or unstable sort gives
    the same list when the order is total; modelled as insertion sort). *)
Definition pair_lt (x y : Z * T) : bool := (fst x <? fst y) || (negb (fst y <? fst x) && slt (snd x) (snd y)).
Fixpoint insert (x : Z * T) (l : list (Z * T)) : list (Z * T) :=
  match l with
  | [] => [x]
  | y :: r => if pair_lt x y then x :: y :: r else y :: insert x r
  end.
Fixpoint isort (l : list (Z * T)) : list (Z * T) := match l with [] => [] | x :: r => insert x (isort r) end.

Fixpoint mapM {A B} (f : A -> res B) (l : list A) : res (list B) :=
  match l with [] => Ret [] | x :: r => do y <- f x; do ys <- mapM f r; Ret (y :: ys) end.

(** matslise.cpp:90-141 computeEigenvaluesHelper. *)
Definition computeEigenvalues (fuel : nat) (Emin Emax : T) (Imin Imax : Z) : res (list (Z * T)) :=
  if Imin <? 0 then Throw "Matslise::computeEigenvalues(): Imin has to be at least 0"
  else if Imax <? Imin then Throw "Matslise::computeEigenvalues(): Imax can't be less then Imin"
  else
    do r <- bisect fuel Imin Imax [mkItem Emin (ang Emin) Emax (ang Emax) 0];
    do evs <- mapM (fun lf => newton (lc lf) true) (fst r);
    Ret (isort evs).

(** matslise.cpp:177-183 eigenvalues(Emin, Emax): indices 0 .. INT_MAX. *)
Definition eigenvalues (fuel : nat) (Emin Emax : T) : res (list (Z * T)) :=
  computeEigenvalues fuel Emin Emax 0 2147483647.

(** matslise.cpp:150-160: grow Emax until floor(theta/pi) >= Imax. *)
Fixpoint find_emax (fuel : nat) (Imin Imax : Z) (Emin Emax : T) : res (T * T) :=
  match fuel with
  | O => Fuel
  | S f =>
      do i <- oint (ifloor (ang Emax));
      if Imax <=? i then Ret (Emin, Emax)
      else find_emax f Imin Imax (if i <? Imin then Emax else Emin) (smul Emax (sofZ 2))
  end.
(** matslise.cpp:162-172: grow -Emin until ceil(theta/pi) <= Imin. *)
Fixpoint find_emin (fuel : nat) (Imin Imax : Z) (Emin Emax : T) : res (T * T) :=
  match fuel with
  | O => Fuel
  | S f =>
      do i <- oint (iceil (ang Emin));
      if i <=? Imin then Ret (Emin, Emax)
      else find_emin f Imin Imax (smul Emin (sofZ 2)) (if Imax <? i then Emin else Emax)
  end.
Definition bracket (fuel : nat) (Imin Imax : Z) : res (T * T) :=
  do r <- find_emax fuel Imin Imax (sofZ (-1)) (sofZ 1);
  if seqb (fst r) (sofZ (-1)) then find_emin fuel Imin Imax (fst r) (snd r) else Ret r.
(** matslise.cpp:144-175 eigenvaluesByIndex. *)
Definition eigenvaluesByIndex (fuel : nat) (Imin Imax : Z) : res (list (Z * T)) :=
  do r <- bracket fuel Imin Imax;
  computeEigenvalues fuel (fst r) (snd r) Imin Imax.

(** matslise.cpp:185-190 eigenvalueError. *)
Definition eigenvalueError (E : T) : res T :=
  do r <- newton E false;
  Ret (sabs (ssub E (snd r))).
End Search.
Arguments item : clear implicits.
Arguments leaf : clear implicits.
Arguments action : clear implicits.
