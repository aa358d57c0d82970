(** Coupled problems: Matscs.

    Models /repo/matslise/matscs.h, /repo/matslise/matscs/matscs.cpp and the propagation parts of
    /repo/matslise/matscs/sector.cpp.  Positions, energies and angles are real numbers (exact arithmetic); the matrices
    have entries in an arbitrary field [F].  The step matrices T(E, delta) (sector.cpp:59-120, modelled in M_Coupled.v)
    and the angle increment of propagateDelta (sector.cpp:167-199, modelled in M_Angle.v) are oracle arguments. *)
From Coq Require Import String Reals ZArith List Bool.
From mathcomp Require Import ssralg matrix.
From Verif Require Import Base M_Sectors.
Import ListNotations.
Open Scope R_scope.

(** Insertion sort, for std::sort of doubles (matscs.cpp:77). *)
Fixpoint rinsert (x : R) (l : list R) : list R :=
  match l with [] => [x] | y :: t => if Rleb x y then x :: l else y :: rinsert x t end.
Fixpoint rsort (l : list R) : list R := match l with [] => [] | x :: t => rinsert x (rsort t) end.

Section Matscs.
Context {F : fieldType} {n : nat} {P : Type}.
Notation sec := (sector R P).

(** util/y.h:14-121, with dimension n and r columns: [cy] = y() holds the blocks None and dX, [ce] = ydE() the blocks
    dE and dXdE. *)
Record CY (r : nat) := mkCY { cy : 'M[F]_(n + n, r); ce : 'M[F]_(n + n, r) }.
Arguments mkCY {r}. Arguments cy {r}. Arguments ce {r}.
(** util/y.h:139-157: t and dt. *)
Record CT := mkCT { ct : 'M[F]_(n + n); cdt : 'M[F]_(n + n) }.

(** util/y.h:33-36 reverse. *)
Definition crev {r} (y : CY r) : CY r :=
  mkCY (col_mx (usubmx (cy y)) (GRing.opp (dsubmx (cy y)))) (col_mx (usubmx (ce y)) (GRing.opp (dsubmx (ce y)))).
(** util/y.h:154-157 operator*. *)
Definition cmul {r} (t : CT) (y : CY r) : CY r :=
  mkCY (ct t *m cy y)%R (GRing.add (ct t *m ce y) (cdt t *m cy y)).
(** util/y.h:159-172 operator/ (dynamic dimension): QR solves; simplification: exact solution by the inverse matrix
    (for a singular matrix the C++ result is arbitrary; here it is [invmx]'s convention). *)
Definition cdiv {r} (t : CT) (y : CY r) : CY r :=
  let yinv := (invmx (ct t) *m cy y)%R in
  mkCY yinv (GRing.add (invmx (ct t) *m ce y) (GRing.opp (invmx (ct t) *m (cdt t *m yinv)))).

(** util/y.h:174-177 getT(row, col). *)
Definition T00 (t : CT) : 'M[F]_n := ulsubmx (ct t).
Definition T01 (t : CT) : 'M[F]_n := ursubmx (ct t).
Definition T10 (t : CT) : 'M[F]_n := dlsubmx (ct t).
Definition T11 (t : CT) : 'M[F]_n := drsubmx (ct t).

(** sector.cpp:94-114 calculateT(E, delta, use_h). *)
Variable calcT : sec -> R -> R -> bool -> CT.
(** sector.cpp:167-199: the angle increment for a step of (signed) length delta from y0 to y1 (modelled in M_Angle.v). *)
Variable argdet : sec -> R -> R -> CY n -> CY n -> R.

Definition csh (s : sec) : R := smax s - smin s.

(** sector.cpp:116-140 propagateDeltaColumn. *)
Definition cpropDelta {r} (s : sec) (E : R) (use_h : bool) (delta : R) (y : CY r) : CY r :=
  let bw := dir_eqb (sdir s) Dbwd in
  let delta := if bw then delta * -1 else delta in
  let right := Rleb 0 delta in
  let delta := if right then delta else - delta in
  let delta := if Rltb (csh s) delta then csh s else delta in
  let t := calcT s E delta use_h in
  let y' := if bw then crev y else y in
  let y' := if right then cmul t y' else cdiv t y' in
  if bw then crev y' else y'.

(** sector.cpp:201-220 Sector::propagateColumn. *)
Definition csprop {r} (s : sec) (E : R) (use_h : bool) (a b : R) (y : CY r) : CY r :=
  if negb ((Rleb (smax s) a && Rleb (smax s) b) || (Rleb a (smin s) && Rleb b (smin s))) then
    if dir_eqb (sdir s) Dfwd then
      let y := if Rltb (smin s) a then cpropDelta s E use_h (smin s - a) y else y in
      if Rltb (smin s) b then cpropDelta s E use_h (b - smin s) y else y
    else
      let y := if Rltb a (smax s) then cpropDelta s E use_h (smax s - a) y else y in
      if Rltb b (smax s) then cpropDelta s E use_h (b - smax s) y else y
  else y.

(** sector.cpp:167-199 propagateDelta: the column step and the angle increment. *)
Definition cpropDeltaA (s : sec) (E : R) (use_h : bool) (delta : R) (y : CY n) : CY n * R :=
  let y' := cpropDelta s E use_h delta y in (y', argdet s E delta y y').
(** sector.cpp:222-250 Sector::propagate. *)
Definition cspropA (s : sec) (E : R) (use_h : bool) (a b : R) (y : CY n) : CY n * R :=
  if negb ((Rleb (smax s) a && Rleb (smax s) b) || (Rleb a (smin s) && Rleb b (smin s))) then
    let step c delta (st : CY n * R) :=
      if c : bool then let q := cpropDeltaA s E use_h delta (fst st) in (fst q, snd st + snd q) else st in
    if dir_eqb (sdir s) Dfwd then step (Rltb (smin s) b) (b - smin s) (step (Rltb (smin s) a) (smin s - a) (y, 0))
    else step (Rltb b (smax s)) (b - smax s) (step (Rltb a (smax s)) (smax s - a) (y, 0))
  else (y, 0).

(** sector.cpp:253-284 propagatePsi_delta.  A.colPivHouseholderQr().solve(B) is modelled as the exact inv(A) B.
    The second branch of the C++ (delta < 0) is kept although delta was made nonnegative before. *)
Definition psiDelta (s : sec) (E : R) (psi : 'M[F]_n) (delta : R) : 'M[F]_n :=
  let delta := if dir_eqb (sdir s) Dbwd then delta * -1 else delta in
  let fwd := Rleb 0 delta in
  let delta := if fwd then delta else - delta in
  let delta := if Rltb (csh s) delta then csh s else delta in
  let extra : F := if dir_eqb (sdir s) Dfwd then GRing.one F else GRing.opp (GRing.one F) in
  if Rltb 0 delta then
    let t := calcT s E delta true in
    scalemx extra (trmx (invmx (trmx (GRing.add (T11 t) (scalemx extra (T10 t) *m psi))) *m trmx (GRing.add (T01 t) (scalemx extra (T00 t) *m psi))))%R
  else if Rltb delta 0 then
    let t := calcT s E (- delta) true in
    scalemx extra (invmx (GRing.add (T11 t) (GRing.opp (scalemx extra psi *m T01 t))) *m
     (GRing.add (scalemx extra psi *m T00 t) (GRing.opp (T10 t))))%R
  else psi.

(** sector.cpp:286-304 Sector::propagatePsi. *)
Definition spsi (s : sec) (E a b : R) (psi : 'M[F]_n) : 'M[F]_n :=
  if negb ((Rleb (smax s) a && Rleb (smax s) b) || (Rleb a (smin s) && Rleb b (smin s))) then
    if dir_eqb (sdir s) Dfwd then
      let psi := if Rltb (smin s) a then psiDelta s E psi (smin s - a) else psi in
      if Rltb (smin s) b then psiDelta s E psi (b - smin s) else psi
    else
      let psi := if Rltb a (smax s) then psiDelta s E psi (smax s - a) else psi in
      if Rltb b (smax s) then psiDelta s E psi (b - smax s) else psi
  else psi.

(** matscs.cpp:22-29, 43-51, 64-71: the do-while loop over the sectors, for any state type. *)
Fixpoint sec_loop {St} (step : sec -> St -> St) (fuel : nat) (l : list sec) (a b : R) (idx : Z) (st : St) : res St :=
  match fuel with
  | O => Fuel
  | S f =>
      do s <- vget l idx;
      let st := step s st in
      if contains s b then Ret st
      else
        let idx := (idx + (if Rltb a b then 1 else -1))%Z in
        if ((0 <=? idx) && (idx <? Z.of_nat (length l)))%Z then sec_loop step f l a b idx st else Ret st
  end.

(** matscs.h:44-46 Matscs::contains. *)
Definition mcontains (lo hi p : R) : bool := Rleb p hi && Rleb lo p.

(** matscs.cpp:11-31 Matscs::propagateColumn. *)
Definition mcolumn {r} (l : list sec) (lo hi E : R) (y : CY r) (a b : R) (use_h : bool) : res (CY r) :=
  if negb (mcontains lo hi a) || negb (mcontains lo hi b) then
    Throw "Matscs::propagate(): a and b should be in the interval"
  else
    do i <- find_sector (length l) l a;
    sec_loop (fun s y => csprop s E use_h a b y) (length l) l a b i y.

(** matscs.cpp:33-54 Matscs::propagate. *)
Definition mpropagate (l : list sec) (lo hi E : R) (y : CY n) (a b : R) (use_h : bool) : res (CY n * R) :=
  if negb (mcontains lo hi a) || negb (mcontains lo hi b) then
    Throw "Matscs::propagate(): a and b should be in the interval"
  else
    do i <- find_sector (length l) l a;
    sec_loop (fun s st => let q := cspropA s E use_h a b (fst st) in (fst q, snd st + snd q)) (length l) l a b i (y, 0).

(** matscs.cpp:56-73 Matscs::propagatePsi (no domain test). *)
Definition mpsi (l : list sec) (E : R) (psi : 'M[F]_n) (a b : R) : res 'M[F]_n :=
  do i <- find_sector (length l) l a;
  sec_loop (fun s p => spsi s E a b p) (length l) l a b i psi.

(** matscs.cpp:75-103 Matscs::eigenfunction. [x] is sorted, points below xmin - 1e-12 are erased (80-83). *)
Fixpoint drop_below (c : R) (x : list R) : list R := match x with [] => [] | p :: t => if Rltb p c then drop_below c t else x end.
Fixpoint drop_above (c : R) (x : list R) : list R := match x with [] => [] | p :: t => if Rltb c p then drop_above c t else x end.
(** 88-93: the inner loop; [sector] is the reference bound before the loop and never rebound.  None = goto.
    calculateT(E) is the oracle at delta = h. *)
Fixpoint ef_inner (fuel : nat) (l : list sec) (E : R) (s : sec) (p : R) (i : Z) (y : CY n) : res (option (Z * CY n)) :=
  match fuel with
  | O => Fuel
  | S f =>
    if Rltb (smax s) p then
      let y := cmul (calcT s E (csh s) true) y in
      let i := (i + 1)%Z in
      if (Z.of_nat (length l) <=? i)%Z then Ret None else ef_inner f l E s p i y
    else Ret (Some (i, y))
  end.
(** 86-96: the outer loop; returns the values and the points at and after the iterator when it stops. *)
Fixpoint ef_outer (l : list sec) (E : R) (x : list R) (i : Z) (y : CY n) (ys : list (CY n)) : res (list (CY n) * list R) :=
  match x with
  | [] => Ret (ys, [])
  | p :: t =>
    do s <- vget l i;
    do r <- ef_inner (S (length l)) l E s p i y;
    match r with
    | None => Ret (ys, x)
    | Some (i, y) => ef_outer l E t i y (ys ++ [cmul (calcT s E (p - smin s) true) y])
    end
  end.
(** The result: the returned vector and the caller's vector [x] as modified. *)
Definition meigenfunction (l : list sec) (lo hi E : R) (x : list R) : res (list (CY n) * list R) :=
  let x := drop_below (lo - 1 / 10 ^ 12) (rsort x) in
  do r <- ef_outer l E x 0 (mkCY (const_mx (GRing.zero F)) (const_mx (GRing.zero F))) [];
  let '(ys, rest) := r in
  Ret (ys, firstn (length x - length rest) x ++ drop_above (hi + 1 / 10 ^ 12) rest).
End Matscs.
Arguments mkCY {F n r}. Arguments cy {F n r}. Arguments ce {F n r}. Arguments mkCT {F n}. Arguments ct {F n}. Arguments cdt {F n}.
