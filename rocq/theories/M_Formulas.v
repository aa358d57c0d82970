(** The one-step propagator of a sector: the tabulated coefficients and Sector::calculateT.

    Models /repo/matslise/matslise/matslise_formulas.cpp:3-323 (calculate_tcoeff_matrix),
    /repo/matslise/util/horner.h and /repo/matslise/matslise/sector.cpp:49-97, over the reals
    (simplification: exact arithmetic, so the association of sums and products is not kept; the
    tables themselves are the generated file M_TableData). *)
From Coq Require Import String Reals ZArith.
From Coquelicot Require Import Coquelicot.
From Coq Require Import List Bool.
From Verif Require Import Base M_Sectors M_Core M_TableData M_Eta.
Import ListNotations.
Open Scope R_scope.

(** Scalar(n)/Scalar(d), or Scalar(n) *)
Definition coef_val (n : Z) (d : positive) : R := if (d =? 1)%positive then IZR n else IZR n / IZR (Zpos d).
(** matslise_formulas.cpp:9-160: v1 = vs[1], ..., v1_v2 = v1 * v2, ... *)
Fixpoint vprod (v : nat -> R) (l : list nat) : R := match l with [] => 1 | k :: r => v k * vprod v r end.
Definition tterm_val (v : nat -> R) (t : tterm) : R := let (n, d, l) := t in coef_val n d * vprod v l.
Definition row_val (v : nat -> R) (r : list tterm) : R := fold_right (fun t acc => tterm_val v t + acc) 0 r.
(** r0 + h*(r1 + h*(...)) *)
Fixpoint entry_val (v : nat -> R) (h : R) (e : hentry) : R :=
  match e with [] => 0 | r :: e' => row_val v r + h * entry_val v h e' end.

(** entry q (0: (0,0), 1: (0,1), 2: (1,0), 3: (1,1)) of tDelta(i,j), of tH[i] (matslise_formulas.cpp:161-322) *)
Definition tdelta_src (i j q : nat) : hentry := nth q (nth j (nth i tdelta_table []) []) [].
Definition th_src (i q : nat) : hentry := nth q (nth i th_table []) [].
Definition tcoeff (v : nat -> R) (h : R) (q i j : nat) : R := entry_val v h (tdelta_src i j q).
Definition tcoeff_h (v : nat -> R) (h : R) (q i : nat) : R := entry_val v h (th_src i q).

(** util/horner.h: r = f[n-1]; for (i = n-2; i >= 0; --i) r = r * x + f[i]. *)
Fixpoint horner_loop (f : nat -> R) (x : R) (i : nat) (r : R) : R :=
  match i with O => r | S j => horner_loop f x j (r * x + f j) end.
Definition horner (f : nat -> R) (x : R) (n : nat) : R := horner_loop f x (n - 1) (f (n - 1)%nat).

(** matslise/formula_constants.h *)
Definition HMAX_delta : nat := 17.
Definition ETA_delta : nat := 9.
Definition ETA_h : nat := 10.
Definition EPS12 : R := / 10 ^ 12.

Section CalculateT.
(** calculateEta<Scalar, n>(Z), as a parameter: [eta_code] below is the code's. *)
Variable etaf : nat -> R -> list R.

(** for (i = 0; i < n; ++i) t += c_i * eta[i] *)
Definition acc_eta (n : nat) (base : R) (c : nat -> R) (eta : nat -> R) : R :=
  fold_left (fun acc i => acc + c i * eta i) (seq 0 n) base.

(** sector.cpp:62-77: the partial step *)
Definition step_delta (v : nat -> R) (h E delta : R) : Tm :=
  let dd := delta * delta in
  let vsE := v 0%nat - E in
  let l := etaf ETA_delta (vsE * dd) in
  let eta i := nth i l 0 in
  let hor q i := horner (tcoeff v h q i) delta HMAX_delta in
  let t q base := acc_eta ETA_delta base (hor q) eta in
  let dt q base := acc_eta (ETA_delta - 1) base (hor q) (fun i => - dd * eta (i + 1)%nat / 2) in
  let base := vsE * delta * eta 1%nat in
  let dbase := - delta * eta 1%nat - vsE * dd * delta * eta 2%nat / 2 in
  mkT (t 0%nat 0) (t 1%nat 0) (t 2%nat base) (t 3%nat 0)
      (dt 0%nat 0) (dt 1%nat 0) (dt 2%nat dbase) (dt 3%nat 0).

(** sector.cpp:83-96: the full step *)
Definition step_full (v : nat -> R) (h E : R) : Tm :=
  let l := etaf ETA_h ((v 0%nat - E) * h * h) in
  let eta i := nth i l 0 in
  let t q base := acc_eta ETA_h base (tcoeff_h v h q) eta in
  let dt q base := acc_eta (ETA_h - 1) base (tcoeff_h v h q) (fun i => - h * h * eta (i + 1)%nat / 2) in
  let base := (v 0%nat - E) * h * eta 1%nat in
  let dbase := - h * eta 1%nat + - (v 0%nat - E) * h * h * h * eta 2%nat / 2 in
  mkT (t 0%nat 0) (t 1%nat 0) (t 2%nat base) (t 3%nat 0)
      (dt 0%nat 0) (dt 1%nat 0) (dt 2%nat dbase) (dt 3%nat 0).

(** sector.cpp:55-78 calculateT(E, delta, use_h); the call of line 59 is calculateT(E), i.e. use_h = true. *)
Definition calculateT (s : sector R (list R)) (E delta : R) (use_h : bool) : Tm :=
  let v k := nth k (spay s) 0 in
  if Rleb (Rabs delta) EPS12 then Tid
  else if use_h && Rleb (Rabs (delta - sh s)) EPS12 then step_full v (sh s) E
  else step_delta v (sh s) E delta.

(** sector.cpp:80-97 calculateT(E, use_h) *)
Definition calculateT_h (s : sector R (list R)) (E : R) (use_h : bool) : Tm :=
  if use_h then step_full (fun k => nth k (spay s) 0) (sh s) E else calculateT s E (sh s) false.

(** sector.cpp:231-250 error(): maximum of the scaled difference of the two formulas at E = vs[0] and of
    a priori estimates of the neglected terms (MATSLISE_N = 16, so the early return is not taken). *)
Definition sector_error (s : sector R (list R)) : R :=
  let v k := nth k (spay s) 0 in
  let h := sh s in
  let a := calculateT_h s (v 0%nat) true in
  let b := calculateT_h s (v 0%nat) false in
  let e_loc0 := Rmax (Rmax (Rabs (t00 a - t00 b)) (Rabs ((t01 a - t01 b) * (1 / h))))
                     (Rmax (Rabs ((t10 a - t10 b) * h)) (Rabs (t11 a - t11 b))) in
  let h12 := h ^ 12 in
  let e_locu := 24 / 10000 * Rabs (v 15%nat) * h12 * h * h * h + 25 / 1000000 * v 7%nat * v 7%nat * h12 * h * h +
    (18 / 1000000 * Rabs (v 3%nat * v 10%nat) + 2 / 100000 * Rabs (v 2%nat * v 11%nat) + 6 / 1000000 * Rabs (v 5%nat * v 8%nat) +
     4 / 1000000 * Rabs (v 4%nat * v 9%nat)) * h12 * h in
  let e_locup := (2 / 10000 * v 7%nat * v 7%nat + 3 / 10000 * Rabs (v 5%nat * v 9%nat) + 3 / 10000 * Rabs (v 6%nat * v 8%nat) +
    6 / 10000 * Rabs (v 1%nat * v 13%nat) + 5 / 10000 * Rabs (v 2%nat * v 12%nat) + 4 / 10000 * Rabs (v 3%nat * v 11%nat)) * h12 * h * h in
  let e_locv := 2 / 10000 * Rabs (v 14%nat) * h12 * h * h + 1 / 100000 * v 6%nat * v 6%nat * h12 in
  Rmax e_loc0 (Rmax e_locu (Rmax e_locup e_locv)).
End CalculateT.

(** the code's calculateEta (it returns for every n >= 2, theorem C08_eta_accurate) *)
Definition eta_code (n : nat) (z : R) : list R := match calculate_eta n z with Ret l => l | _ => [] end.
