(** calculateEta, in exact real arithmetic.
    Models /repo/matslise/util/calculateEta.h:7-69 (the vectorised overload, lines 71-79, applies it
    component by component: [calculate_eta_columns]).  [Scalar] is R, so rounding, overflow of cosh and
    the loss of accuracy of the forward recurrence are not modelled; the C++ integer arithmetic on
    q2, last_eta is far below the range of int and is modelled on Z / nat. *)
From Coq Require Import String Reals ZArith.
From Coquelicot Require Import Coquelicot.
From Coq Require Import List Bool.
From Verif Require Import Base.
Import ListNotations.
Open Scope R_scope.

(** calculateEta.h:11 int(Z): conversion to int truncates towards zero. *)
Definition trunc (x : R) : Z := if Rltb x 0 then (- Int_part (- x))%Z else Int_part x.

(** calculateEta.h:11-13. *)
Definition last_eta (n : nat) (z : R) : nat :=
  let l := ((Z.abs (trunc z) + 9) / 4)%Z in
  let l := if (150 <? l)%Z then 150%Z else l in
  let l := if (l <? Z.of_nat n + 2)%Z then (Z.of_nat n + 2)%Z else l in
  Z.to_nat l.

(** calculateEta.h:15-17: w0 = 1; for (j = 0; j < last_eta; ++j) w0 *= 2 * j + 1. *)
Fixpoint w0_loop (k j : nat) (w : R) : R :=
  match k with O => w | S k' => w0_loop k' (S j) (w * IZR (2 * Z.of_nat j + 1)) end.

(** calculateEta.h:20-27 and 31-38: for (q2 = 2; q2 < 60; q2 += 2) { f *= Z / (q2 * (q2 + m)); acc += f; }
    with m = 2 * last_eta - 1, respectively 2 * last_eta + 1.  [k] counts the remaining iterations. *)
Fixpoint series_loop (k : nat) (z : R) (m q2 : Z) (f acc : R) : R :=
  match k with
  | O => acc
  | S k' => if (q2 <? 60)%Z
            then let f := f * (z / IZR (q2 * (q2 + m))) in series_loop k' z m (q2 + 2) f (acc + f)
            else acc
  end.

(** calculateEta.h:42-48: for (i = last_eta - 1; i >= 0; --i).  [k] = i + 1; the list collects eta[i], eta[i+1], ... *)
Fixpoint back_loop (k n : nat) (z cur next : R) (eta : list R) : list R :=
  match k with
  | O => eta
  | S i =>
    let cur' := IZR (2 * Z.of_nat i + 1) * cur + z * next in
    back_loop i n z cur' cur (if (i <? n)%nat then cur' :: eta else eta)
  end.

(** calculateEta.h:64-66: for (i = 2; i < n; ++i) eta[i] = (eta[i-2] - (2i-3) eta[i-1]) / Z. *)
Fixpoint fwd_loop (k : nat) (i : Z) (z e0 e1 : R) : list R :=
  match k with
  | O => []
  | S k' => let e2 := (e0 - IZR (2 * i - 3) * e1) / z in e2 :: fwd_loop k' (i + 1) z e1 e2
  end.

(** calculateEta.h:8-69.  For n < 2 the stores of lines 55-56, 59-60 are outside the array. *)
Definition calculate_eta (n : nat) (z : R) : res (list R) :=
  if Rltb (Rabs z) 100 then
    let l := last_eta n z in
    let w0 := 1 / w0_loop l 0 1 in
    let cur := series_loop 60 z (2 * Z.of_nat l - 1) 2 w0 w0 in
    let w1 := w0 / IZR (2 * Z.of_nat l + 1) in
    let next := series_loop 60 z (2 * Z.of_nat l + 1) 2 w1 w1 in
    Ret (back_loop l n z cur next [])
  else if (n <? 2)%nat then UB "calculateEta: eta[1] with n < 2"
  else
    let '(e0, e1) :=
      if Rltb 0 z then let s := sqrt z in (cosh s, sinh s / s)
      else let s := sqrt (- z) in (cos s, sin s / s) in
    Ret (e0 :: e1 :: fwd_loop (n - 2) 2 z e0 e1).

(** calculateEta.h:71-79: one column per component of Z. *)
Fixpoint calculate_eta_columns (n : nat) (zs : list R) : res (list (list R)) :=
  match zs with
  | [] => Ret []
  | z :: r => do c <- calculate_eta n z; do cs <- calculate_eta_columns n r; Ret (c :: cs)
  end.
