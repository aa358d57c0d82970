(** Propagation of solutions and Pruefer angles through sectors.

    Models /repo/matslise/util/y.h (dimension 1), /repo/matslise/util/theta.h,
    /repo/matslise/matslise/sector.cpp:99-229 and
    /repo/matslise/matslise/matslise.cpp:15-58, over the reals (simplification: exact
    arithmetic; constants<Scalar>::PI is the real number PI). *)
From Coq Require Import String ZArith Reals List Bool.
From Verif Require Import Base M_Sectors.
Import ListNotations.
Open Scope R_scope.

(** util/y.h:14-19, 38-44 Y<Scalar,1,1>: data = (y, y', dy/dE, dy'/dE). *)
Record Y := mkY { y0 : R; y1 : R; e0 : R; e1 : R }.
(** util/y.h:21-31 Dirichlet and Neumann. *)
Definition Dirichlet : Y := mkY 0 1 0 0.
Definition Neumann : Y := mkY 1 0 0 0.
(** util/y.h:33-36 reverse(). *)
Definition reverse (y : Y) : Y := mkY (y0 y) (y1 y * -1) (e0 y) (e1 y * -1).
(** util/y.h:97-104 operator*, operator*= by a scalar. *)
Definition yscale (f : R) (y : Y) : Y := mkY (y0 y * f) (y1 y * f) (e0 y * f) (e1 y * f).
(** util/y.h:64-66 unary minus. *)
Definition yopp (y : Y) : Y := mkY (- y0 y) (- y1 y) (- e0 y) (- e1 y).

(** util/y.h:139-153 T<Scalar,1>: propagation matrix t and its energy derivative dt. *)
Record Tm := mkT { t00 : R; t01 : R; t10 : R; t11 : R; d00 : R; d01 : R; d10 : R; d11 : R }.
Definition Tid : Tm := mkT 1 0 0 1 0 0 0 0.

(** util/y.h:155-158 T * Y = (t y, t yE + dt y). *)
Definition tmul (t : Tm) (y : Y) : Y :=
  mkY (t00 t * y0 y + t01 t * y1 y) (t10 t * y0 y + t11 t * y1 y)
      (t00 t * e0 y + t01 t * e1 y + (d00 t * y0 y + d01 t * y1 y))
      (t10 t * e0 y + t11 t * e1 y + (d10 t * y0 y + d11 t * y1 y)).
(** util/y.h:160-166 T / Y, n == 1: multiplication by the adjugates of t and dt. *)
Definition tdiv (t : Tm) (y : Y) : Y :=
  tmul (mkT (t11 t) (- t01 t) (- t10 t) (t00 t) (d11 t) (- d01 t) (- d10 t) (d00 t)) y.

(** C's atan2 on reals. *)
Definition atan2 (y x : R) : R :=
  if Rltb 0 x then atan (y / x)
  else if Rltb x 0 then (if Rleb 0 y then atan (y / x) + PI else atan (y / x) - PI)
  else if Rltb 0 y then PI / 2 else if Rltb y 0 then - (PI / 2) else 0.

(** util/theta.h:7-16 atan_safe. *)
Definition atan_safe (y x : R) : R :=
  let r := atan2 y x in
  if Rltb (PI / 2) r then r - PI else if Rleb r (- (PI / 2)) then r + PI else r.

(** matslise/sector.cpp:99-104 rescale. *)
Definition rescale (theta sigma : R) : R :=
  theta + atan2 ((sigma - 1) * sin theta * cos theta) (1 + (sigma - 1) * sin theta * sin theta).

(** [scaling] of matslise/sector.cpp:108 and 121; [vm] is v0Match, the mean potential of the
    matching sector, copied into every sector by the constructor (matslise.h:152-154). *)
Definition scaling (vm E : R) : R := if Rltb 1 (E - vm) then sqrt (E - vm) else 1.

(** matslise/sector.cpp:17-20 sign. *)
Definition signI (s : R) : Z := if Rltb 0 s then 1%Z else if Rltb s 0 then (-1)%Z else 0%Z.

Notation sec := (sector R (list R)).
(** vs[0], the mean potential of a sector. *)
Definition v0 (s : sec) : R := nth 0 (spay s) 0.
(** h = max - min (matslise/sector.cpp:25). *)
Definition sh (s : sec) : R := smax s - smin s.

(** matslise/sector.cpp:106-116 theta0. *)
Definition theta0 (vm : R) (s : sec) (E : R) (y : Y) : R :=
  let sc := scaling vm E in
  if Rltb (v0 s) E then
    let omega := sqrt (E - v0 s) in
    rescale (atan_safe (y0 y * omega) (y1 y)) (sc / omega)
  else atan_safe (sc * y0 y) (y1 y).

(** matslise/sector.cpp:118-156 pruferHelper. *)
Definition prufer (vm : R) (s : sec) (E delta : R) (ya yb : Y) : R :=
  let sc := scaling vm E in
  if Rltb (v0 s) E then
    let omega := sqrt (E - v0 s) in
    let theta0 := atan_safe (y0 ya * omega) (y1 ya) in
    let phi_star := atan_safe (y0 yb * omega) (y1 yb) in
    let phi_bar := omega * delta + theta0 in
    let phi_bar := phi_bar - IZR (Int_part (phi_bar / PI)) * PI in
    let theta1 := phi_star - phi_bar in
    let theta1 := if Rltb theta1 (- PI / 2) then theta1 + PI
                  else if Rltb (PI / 2) theta1 then theta1 - PI else theta1 in
    let theta1 := theta1 + (theta0 + omega * delta) in
    let theta1 := if Rltb theta1 theta0 then theta1 + PI else theta1 in
    rescale theta1 (sc / omega) - rescale theta0 (sc / omega)
  else
    let theta0 := atan_safe (sc * y0 ya) (y1 ya) in
    let theta1 := atan_safe (sc * y0 yb) (y1 yb) in
    let theta1 :=
      if Rleb 0 (y0 ya * y0 yb) then
        let s0 := if Reqb theta0 0 then 1%Z else signI theta0 in
        let s1 := if Reqb theta1 0 then (-1)%Z else signI theta1 in
        if (s0 * s1 <? 0)%Z then theta1 + IZR s0 * PI else theta1
      else if Rltb 0 (theta0 * theta1) then theta1 + PI else theta1 in
    theta1 - theta0.

Section Propagate.
(** [calcT s E delta use_h]: Sector::calculateT(E, delta, use_h), matslise/sector.cpp:55-97
    (modelled in M_Formulas; the theorems about propagation hold for every such function). *)
Variable calcT : sec -> R -> R -> bool -> Tm.
Variable vm : R.

(** matslise/sector.cpp:174-199 propagateDelta, one column, withPrufer = true. *)
Definition propagateDelta (s : sec) (E : R) (use_h : bool) (delta : R) (st : Y * R) : Y * R :=
  let '(y, theta) := st in
  let bw := dir_eqb (sdir s) Dbwd in
  let delta := if bw then delta * -1 else delta in
  let direction := Rleb 0 delta in
  let delta := if direction then delta else - delta in
  let delta := if Rltb (sh s) delta then sh s else delta in
  let t := calcT s E delta use_h in
  let y' := if bw then reverse y else y in
  let y' := if direction then tmul t y' else tdiv t y' in
  let y' := if bw then reverse y' else y' in
  let dth := if negb (Bool.eqb direction bw) then prufer vm s E delta y y' else - prufer vm s E delta y' y in
  (y', theta + dth).

(** matslise/sector.cpp:201-229 Sector::propagate<true>. *)
Definition sprop (s : sec) (E : R) (y : Y) (a b : R) (use_h : bool) : Y * R :=
  let st := (y, 0) in
  if negb ((Rleb (smax s) a && Rleb (smax s) b) || (Rleb a (smin s) && Rleb b (smin s))) then
    if dir_eqb (sdir s) Dfwd then
      let st := if Rltb (smin s) a then propagateDelta s E use_h (smin s - a) st else st in
      if Rltb (smin s) b then propagateDelta s E use_h (b - smin s) st else st
    else
      let st := if Rltb a (smax s) then propagateDelta s E use_h (smax s - a) st else st in
      if Rltb b (smax s) then propagateDelta s E use_h (b - smax s) st else st
  else st.
(** Sector::propagate<false>: the same without the angle. *)
Definition sprop_y (s : sec) (E : R) (y : Y) (a b : R) (use_h : bool) : Y := fst (sprop s E y a b use_h).

(** matslise/matslise.cpp:33-40, the do-while loop. *)
Fixpoint prop_loop (fuel : nat) (l : list sec) (E a b : R) (use_h : bool) (idx : Z) (y : Y) (theta : R) : res (Y * R) :=
  match fuel with
  | O => Fuel
  | S f =>
      do s <- vget l idx;
      let '(y, dth) := sprop s E y a b use_h in
      let theta := theta + dth in
      if contains s b then Ret (y, theta)
      else
        let idx := (idx + (if Rltb a b then 1 else -1))%Z in
        if ((0 <=? idx) && (idx <? Z.of_nat (length l)))%Z then prop_loop f l E a b use_h idx y theta
        else Ret (y, theta)
  end.

(** initial angle adjustment, matslise/matslise.cpp:27-32. *)
Definition theta_start (s : sec) (E a b : R) (y : Y) : R :=
  let t := theta0 vm s E y in
  if Rltb t 0 || (Rltb b a && Reqb t 0) then t + PI else t.

(** matslise/matslise.cpp:15-45 Matslise::propagate<1>. *)
Definition propagate (l : list sec) (lo hi E : R) (y : Y) (a b : R) (use_h : bool) : res (Y * R) :=
  if negb (dom_contains lo hi a) || negb (dom_contains lo hi b) then
    Throw "Matslise::propagate(): a and b should be in the interval"
  else
    do i <- find_sector (length l) l a;
    do s <- vget l i;
    prop_loop (length l) l E a b use_h i y (theta_start s E a b y).

(** ** [cols] columns (matslise/matslise.cpp:19-45 with cols > 1): the matrices act on all
    columns at once, angles are arrays. *)
Definition propagateDeltaN (s : sec) (E : R) (use_h : bool) (delta : R) (st : list Y * list R) : list Y * list R :=
  let '(ys, thetas) := st in
  let bw := dir_eqb (sdir s) Dbwd in
  let delta := if bw then delta * -1 else delta in
  let direction := Rleb 0 delta in
  let delta := if direction then delta else - delta in
  let delta := if Rltb (sh s) delta then sh s else delta in
  let t := calcT s E delta use_h in
  let y' := if bw then map reverse ys else ys in
  let y' := if direction then map (tmul t) y' else map (tdiv t) y' in
  let y' := if bw then map reverse y' else y' in
  let dth := if negb (Bool.eqb direction bw)
             then map (fun p => prufer vm s E delta (fst p) (snd p)) (combine ys y')
             else map (fun p => - prufer vm s E delta (fst p) (snd p)) (combine y' ys) in
  (y', map (fun p => fst p + snd p) (combine thetas dth)).

Definition spropN (s : sec) (E : R) (ys : list Y) (a b : R) (use_h : bool) : list Y * list R :=
  let st := (ys, map (fun _ => 0) ys) in
  if negb ((Rleb (smax s) a && Rleb (smax s) b) || (Rleb a (smin s) && Rleb b (smin s))) then
    if dir_eqb (sdir s) Dfwd then
      let st := if Rltb (smin s) a then propagateDeltaN s E use_h (smin s - a) st else st in
      if Rltb (smin s) b then propagateDeltaN s E use_h (b - smin s) st else st
    else
      let st := if Rltb a (smax s) then propagateDeltaN s E use_h (smax s - a) st else st in
      if Rltb b (smax s) then propagateDeltaN s E use_h (b - smax s) st else st
  else st.

Fixpoint prop_loopN (fuel : nat) (l : list sec) (E a b : R) (use_h : bool) (idx : Z) (ys : list Y) (thetas : list R) : res (list Y * list R) :=
  match fuel with
  | O => Fuel
  | S f =>
      do s <- vget l idx;
      let '(ys, dth) := spropN s E ys a b use_h in
      let thetas := map (fun p => fst p + snd p) (combine thetas dth) in
      if contains s b then Ret (ys, thetas)
      else
        let idx := (idx + (if Rltb a b then 1 else -1))%Z in
        if ((0 <=? idx) && (idx <? Z.of_nat (length l)))%Z then prop_loopN f l E a b use_h idx ys thetas
        else Ret (ys, thetas)
  end.

Definition propagateN (l : list sec) (lo hi E : R) (ys : list Y) (a b : R) (use_h : bool) : res (list Y * list R) :=
  if negb (dom_contains lo hi a) || negb (dom_contains lo hi b) then
    Throw "Matslise::propagate(): a and b should be in the interval"
  else
    do i <- find_sector (length l) l a;
    do s <- vget l i;
    prop_loopN (length l) l E a b use_h i ys (map (theta_start s E a b) ys).

(** matslise/matslise.cpp:47-58 matchingError; [m] is matchIndex. *)
Definition matchingError (l : list sec) (m : Z) (lo hi E : R) (left right : Y) (use_h : bool) : res (R * R * R) :=
  do sm <- vget l m;
  do pl <- propagate l lo hi E left lo (smax sm) use_h;
  do pr <- propagate l lo hi E right hi (smax sm) use_h;
  let '(l, thetaL) := pl in
  let '(r, thetaR) := pr in
  Ret (y1 l * y0 r - y1 r * y0 l,
       e1 l * y0 r + y1 l * e0 r - (e1 r * y0 l + y1 r * e0 l),
       thetaL - thetaR).
End Propagate.

(** A constructed problem: what the methods of Matslise read (matslise.h:118-160). *)
Record problem := mkProblem { plo : R; phi : R; psecs : list sec; pmatch : Z; ptol : R }.
Definition v0Match (p : problem) : R := match vget (psecs p) (pmatch p) with Ret s => v0 s | _ => 0 end.
