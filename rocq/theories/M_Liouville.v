(** Liouville transformation and Sturm-Liouville problems.

    Models /repo/matslise/liouville.h and /repo/matslise/liouville/{liouville,sturm_liouville}.cpp
    over the reals (simplification: exact arithmetic; [sqrt] is the real square root, 0 on
    negative numbers where C++ gives NaN; x/0 is a number where C++ gives inf or NaN). *)
From Coq Require Import String Reals ZArith List Bool.
From Verif Require Import Base M_LegendreData M_Sectors M_Legendre M_Poly M_Core.
Import ListNotations.
Open Scope R_scope.

(** liouville.cpp:10-22 x2r_impl: bisection of [0,1] while high - low > 1e-15.  [fuel] bounds the
    number of evaluations of the loop condition. *)
Fixpoint x2r_loop (fuel : nat) (f : R -> R) (x low high : R) : res R :=
  match fuel with
  | O => Fuel
  | S k =>
    if Rltb (1 / 10 ^ 15) (high - low) then
      let mid := (high + low) / 2 in
      if Rltb x (f mid) then x2r_loop k f x low mid else x2r_loop k f x mid high
    else Ret ((low + high) / 2)
  end.
(** The loop ends by its own test before 64 evaluations for every argument (theorem C48_halvings),
    so the default value 0 is never used. *)
Definition x2r_impl (f : R -> R) (x : R) : R := match x2r_loop 64 f x 0 1 with Ret v => v | _ => 0 end.

(** liouville.h:22-42 struct Piece. *)
Record piece := mkPiece {
  r_min : R; r_max : R; x_min : R; x_max : R;
  pr2x : poly; pp : poly; pw : poly; ppwx : poly
}.

(** liouville.cpp:24-49 Piece::Piece; DEGREE = 8 (liouville.h:16). *)
Definition make_piece (p w : R -> R) (rmin rmax : R) : piece :=
  let pP := asPolynomial 9 p rmin rmax in
  let pW := asPolynomial 9 w rmin rmax in
  let m := pmuls (pint (asPolynomial 8 (fun t => sqrt (peval pW t / peval pP t)) 0 1)) (rmax - rmin) in
  let xmax := peval m 1 in
  let pwx := asPolynomial 11 (fun xv => let rv := x2r_impl (peval m) xv in peval pP rv * peval pW rv) 0 xmax in
  mkPiece rmin rmax 0 xmax m pP pW pwx.

(** liouville.cpp:51-59 setXMin. *)
Definition setXMin (q : piece) (xm : R) : piece :=
  if Reqb xm (x_min q) then q
  else
    let dx := xm - x_min q in
    mkPiece (r_min q) (r_max q) xm (x_max q + dx) (padds (pr2x q) dx) (pp q) (pw q) (ppwx q).

(** liouville.h:33-39 normalizeR, normalizeX. *)
Definition normalizeR (q : piece) (r : R) : R := (r - r_min q) / (r_max q - r_min q).
Definition normalizeX (q : piece) (x : R) : R := (x - x_min q) / (x_max q - x_min q).

(** liouville.cpp:124-127 Piece::x2r (its argument is the normalised x in [0,1]). *)
Definition piece_x2r (q : piece) (t : R) : R :=
  r_min q + (r_max q - r_min q) * x2r_impl (peval (pr2x q)) (x_min q + t * (x_max q - x_min q)).

(** liouville.cpp:61-67 relError. *)
Definition relError (exact estimate : R) : R :=
  let err := exact - estimate in
  Rabs (if Rltb 1 exact || Rltb exact (-1) then err / exact else err).
(** liouville.cpp:69-72 pieceError. *)
Definition pieceError (f : piece -> R) (full left right : piece) : R := relError (f left + f right) (f full).

(** liouville.cpp:94-108: the acceptance test. *)
Definition accept (next left right : piece) : bool :=
  Rltb (x_max next - x_min next) (1 / 10 ^ 8) ||
  (Rltb (relError (x_max right) (x_max next)) (1 / 10 ^ 14) &&
   Rltb (pieceError (fun q => pint_at (pr2x q) 1 * (r_max q - r_min q)) next left right) (1 / 10 ^ 14) &&
   Rltb (pieceError (fun q => integrate true 12 (piece_x2r q) 0 1 0 * (x_max q - x_min q)) next left right) (1 / 10 ^ 14) &&
   Rltb (pieceError (fun q => pint_at (ppwx q) 1 * (x_max q - x_min q)) next left right) (1 / 10 ^ 14) &&
   Rltb (pieceError (fun q => peval (ppwx q) 1 - peval (ppwx q) 0) next left right) (1 / 10 ^ 12)).

(** liouville.cpp:83-119: the loop of constructPiecewise.  The stack [toDo] is a list whose head is
    toDo.back(); [pieces] is kept in order. *)
Fixpoint construct_loop (fuel : nat) (p w : R -> R) (toDo : list piece) (xm : R) (pieces : list piece) : res (list piece) :=
  match fuel with
  | O => Fuel
  | S k =>
    match toDo with
    | [] => Ret pieces
    | next0 :: rest =>
      let next := setXMin next0 xm in
      let rMid := (r_min next + r_max next) / 2 in
      let left := setXMin (make_piece p w (r_min next) rMid) xm in
      let right := setXMin (make_piece p w rMid (r_max next)) (x_max left) in
      if accept next left right
      then construct_loop k p w rest (x_max right) (pieces ++ [left; right])
      else construct_loop k p w (left :: right :: rest) xm pieces
    end
  end.

(** liouville.cpp:74-122 constructPiecewise and 129-133 (the constructor). *)
Definition constructPiecewise (fuel : nat) (p w : R -> R) (rmin rmax : R) : res (list piece) :=
  construct_loop fuel p w [make_piece p w rmin rmax] 0 [].

(** std::lower_bound (libstdc++ <bits/stl_algobase.h> __lower_bound) on positions: the loop
    while (len > 0) { half = len >> 1; mid = first + half; if (comp(mid)) { first = mid + 1;
    len = len - half - 1 } else len = half }.  [comp] is the comparison with the value. *)
Fixpoint lower_bound_loop (fuel : nat) (comp : nat -> bool) (first len : nat) : nat :=
  match fuel with
  | O => first
  | S k =>
    match len with
    | O => first
    | _ =>
      let half := Nat.div2 len in
      let mid := (first + half)%nat in
      if comp mid then lower_bound_loop k comp (S mid) (len - half - 1) else lower_bound_loop k comp first half
    end
  end.
(** len strictly decreases, so len + 1 rounds are enough. *)
Definition lower_bound (comp : nat -> bool) (n : nat) : nat := lower_bound_loop (S n) comp 0 n.

(** liouville.cpp:135-149 findPiece, for the coordinate with end points [fmin], [fmax].  The assert is
    modelled as undefined behaviour when it fails (with NDEBUG it is skipped and the polynomial of the
    wrong piece is used). *)
Definition findPiece {A} (fmin fmax : A -> R) (l : list A) (v : R) : res A :=
  let comp i := match nth_error l i with Some q => Rleb (fmax q) v | None => false end in
  let i := Z.of_nat (lower_bound comp (length l)) in
  do q <- vget l (if (i =? Z.of_nat (length l))%Z then (i - 1)%Z else i);
  if Rleb (fmin q) v && Rleb v (fmax q) then Ret q else UB "assert(contains)".
Definition find_r := findPiece r_min r_max.
Definition find_x := findPiece x_min x_max.

(** liouville.cpp:151-155 r2x. *)
Definition r2x (l : list piece) (r : R) : res R := do q <- find_r l r; Ret (peval (pr2x q) (normalizeR q r)).
(** liouville.cpp:157-161 x2r. *)
Definition x2r (l : list piece) (x : R) : res R := do q <- find_x l x; Ret (piece_x2r q (normalizeX q x)).

(** liouville.h:57-59 xDomain. *)
Definition xDomain (l : list piece) : res (R * R) :=
  do a <- vget l 0; do b <- vget l (Z.of_nat (length l) - 1)%Z; Ret (x_min a, x_max b).

(** liouville.cpp:168-182 V (with [q] = m_q). *)
Definition V_at (q : R -> R) (c : piece) (x : R) : R :=
  let nx := normalizeX c x in
  let r := piece_x2r c nx in
  let nr := normalizeR c r in
  let h := x_max c - x_min c in
  let f := peval (ppwx c) nx in
  let f_dx := pderiv_at 1 (ppwx c) nx / h in
  let f_ddx := pderiv_at 2 (ppwx c) nx / (h * h) in
  q r / peval (pw c) nr - 3 * ((f_dx / (4 * f)) * (f_dx / (4 * f))) + f_ddx / (4 * f).
Definition V (q : R -> R) (l : list piece) (x : R) : res R := do c <- find_x l x; Ret (V_at q c x).

(** liouville.cpp:190-198 (and 216-224): the local quantities at normalised position nr. *)
Definition xdr_at (c : piece) (nr : R) : R := sqrt (peval (pw c) nr / peval (pp c) nr).
Definition sigma_at (c : piece) (nr : R) : R := 1 / sqrt (peval (pp c) nr * xdr_at c nr).
Definition dsigma_at (c : piece) (nr : R) : R :=
  let h := r_max c - r_min c in
  let dp := pderiv_at 1 (pp c) nr / h in
  let dw := pderiv_at 1 (pw c) nr / h in
  - (1 / 4) * sigma_at c nr * (dp / peval (pp c) nr + dw / peval (pw c) nr).

(** liouville.cpp:200-207: the in-place updates of z2y, in order. *)
Definition z2y_at (c : piece) (nr : R) (z : Y) : Y :=
  let s := sigma_at c nr in let ds := dsigma_at c nr in let xdr := xdr_at c nr in
  let u0 := y0 z * (1 / s) in
  let ue := e0 z * (1 / s) in
  mkY u0 ((y1 z - ds * u0) * (1 / (s * xdr))) ue ((e1 z - ds * ue) * (1 / (s * xdr))).
(** liouville.cpp:184-208 z2y. *)
Definition z2y (l : list piece) (r : R) (z : Y) : res Y := do c <- find_r l r; Ret (z2y_at c (normalizeR c r) z).

(** liouville.cpp:226-233: the in-place updates of y2z, in order. *)
Definition y2z_at (c : piece) (nr : R) (y : Y) : Y :=
  let s := sigma_at c nr in let ds := dsigma_at c nr in let xdr := xdr_at c nr in
  mkY (y0 y * s) (y1 y * ds + s * xdr * y0 y) (e0 y * s) (e1 y * ds + s * xdr * e0 y).
(** liouville.cpp:210-234 y2z. *)
Definition y2z (l : list piece) (x : R) (y : Y) : res Y :=
  do c <- find_x l x; Ret (y2z_at c (normalizeR c (piece_x2r c (normalizeX c x))) y).

(** sturm_liouville.cpp:22-27 SLEigenfunction::operator()(Scalar); [ef] is the wrapped Schroedinger
    eigenfunction, giving value and derivative at x. *)
Definition sl_ef (l : list piece) (ef : R -> res (R * R)) (r : R) : res (R * R) :=
  do x <- r2x l r;
  do v <- ef x;
  do z <- y2z l x (mkY (fst v) (snd v) 0 0);
  Ret (y0 z, y1 z).

Fixpoint traverse {A B} (f : A -> res B) (l : list A) : res (list B) :=
  match l with [] => Ret [] | a :: t => do b <- f a; do r <- traverse f t; Ret (b :: r) end.

(** sturm_liouville.cpp:29-43 operator()(Array): convert all points, evaluate the wrapped
    eigenfunction on the array, convert every row. *)
Definition sl_ef_array (l : list piece) (efs : list R -> res (list (R * R))) (rs : list R) : res (list (R * R)) :=
  do xs <- traverse (r2x l) rs;
  do zs <- efs xs;
  traverse (fun i =>
    do v <- vget zs (Z.of_nat i); do x <- vget xs (Z.of_nat i);
    do z <- y2z l x (mkY (fst v) (snd v) 0 0); Ret (y0 z, y1 z)) (seq 0 (length rs)).

(** liouville.h:84-90, sturm_liouville.cpp:50-54: the boundary data handed to the Schroedinger solver. *)
Definition sl_boundary (l : list piece) (rmin rmax : R) (left right : Y) : res (Y * Y) :=
  do a <- z2y l rmin left; do b <- z2y l rmax right; Ret (a, b).
(** liouville.h:84-108 and sturm_liouville.cpp:46-70: eigenvaluesByIndex, eigenvalueError and
    eigenpairsByIndex call the Schroedinger solver with that data; [solver] is that call. *)
Definition sl_solve {A} (l : list piece) (rmin rmax : R) (solver : Y -> Y -> res A) (left right : Y) : res A :=
  do b <- sl_boundary l rmin rmax left right; solver (fst b) (snd b).
