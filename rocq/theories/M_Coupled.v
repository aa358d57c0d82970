(** Coupled problems: the step matrices of a Matscs sector.

    Models /repo/matslise/matscs/matscs_formulas.cpp (calculate_tcoeff_matrix), /repo/matslise/util/horner.h,
    /repo/matslise/util/calculateEta.h:76-84 (one column of eta's per channel) and
    /repo/matslise/matscs/sector.cpp:15-114, over the reals (exact arithmetic: the decimal literals of the tables are
    the rational numbers they denote, products and sums may be reassociated).  An n x n matrix is a function of its
    row and column, only entries < n matter.  The eigenvectors computed by Eigen's SelfAdjointEigenSolver are an
    argument. *)
From Coq Require Import String Reals ZArith.
From Coquelicot Require Import Coquelicot.
From Coq Require Import List Bool.
From Verif Require Import Base M_Sectors M_Core M_TableData M_Eta M_Formulas M_CoupledData S_Formulas.
Import ListNotations.
Open Scope R_scope.

Definition mat := nat -> nat -> R.
Definition mid : mat := fun r c => if (r =? c)%nat then 1 else 0.
Definition mzero : mat := fun _ _ => 0.
Definition madd (A B : mat) : mat := fun r c => A r c + B r c.
Definition mscale (k : R) (A : mat) : mat := fun r c => k * A r c.
Definition mtr (A : mat) : mat := fun r c => A c r.
Definition mmult (n : nat) (A B : mat) : mat := fun r c => rsum n (fun k => A r k * B k c).
(** arr.matrix().asDiagonal() *)
Definition mdiag (d : nat -> R) : mat := fun r c => if (r =? c)%nat then d r else 0.

(** matscs_formulas.cpp:29-157: the products v1_v2 = v1 * v2, ... *)
Definition wprod (n : nat) (vs : nat -> mat) (w : list nat) : mat := fold_right (fun k A => mmult n (vs k) A) mid w.
Definition wterm_val (n : nat) (vs : nat -> mat) (t : wterm) : mat :=
  let (m, e, w) := t in mscale (IZR m / 10 ^ e) (wprod n vs w).
Definition wrow_val (n : nat) (vs : nat -> mat) (r : list wterm) : mat := fold_right (fun t A => madd (wterm_val n vs t) A) mzero r.
Definition wentry_val (n : nat) (vs : nat -> mat) (h : R) (e : wentry) : mat :=
  fold_right (fun r A => madd (mscale (h ^ fst r) (wrow_val n vs (snd r))) A) mzero e.
(** matscs_formulas.cpp:158-end: block q (0: (0,0), 1: (0,n), 2: (n,0), 3: (n,n)) of tDelta(i, j) and of tH[i] *)
Definition ctcoeff (n : nat) (vs : nat -> mat) (h : R) (q i j : nat) : mat :=
  wentry_val n vs h (nth q (nth j (nth i wdelta_table []) []) []).
Definition ctcoeff_h (n : nat) (vs : nat -> mat) (h : R) (q i : nat) : mat := wentry_val n vs h (nth q (nth i wh_table []) []).

(** formula_constants.h:9-12 *)
Definition CHMAX_delta : nat := 10.
Definition CETA_delta : nat := 5.
Definition CETA_h : nat := 6.

(** util/y.h:139-153: the four blocks of t and of dt *)
Record CTm := mkCTm { cb : nat -> mat; cdb : nat -> mat }.
Definition CTid : CTm := mkCTm (fun q => match q with 0 | 3 => mid | _ => mzero end%nat) (fun _ => mzero).

(** util/horner.h, for matrices: r = f[m-1]; for (i = m-2; i >= 0; --i) r = r * x + f[i] *)
Fixpoint mhorner_loop (f : nat -> mat) (x : R) (i : nat) (A : mat) : mat :=
  match i with O => A | S j => mhorner_loop f x j (madd (mscale x A) (f j)) end.
Definition mhorner (f : nat -> mat) (x : R) (m : nat) : mat := mhorner_loop f x (m - 1) (f (m - 1)%nat).

Section CalculateT.
Variable etaf : nat -> R -> list R.
Variable n : nat.

(** sector.cpp:75-87: t += coeff_i * diag(eta_i), i < m, in one of the blocks *)
Definition macc (m : nat) (base : mat) (c : nat -> mat) (d : nat -> nat -> R) : mat :=
  fold_left (fun A i => madd A (mmult n (c i) (mdiag (d i)))) (seq 0 m) base.

(** sector.cpp:61-93 calculateTFromVEd before the change of basis: [m] the number of eta's, [coeff] the coefficient
    blocks (from tDelta by Horner's rule, or tH) *)
Definition blocksVEd (m : nat) (coeff : nat -> nat -> mat) (delta : R) (VEd : nat -> R) : CTm :=
  let eta i c := nth i (etaf m (VEd c * delta)) 0 in
  let t q base := macc m base (coeff q) eta in
  let dt q base := macc (m - 1) base (coeff q) (fun i c => eta (i + 1)%nat c * (- delta * delta / 2)) in
  let base := mdiag (fun c => eta 1%nat c * VEd c) in
  let dbase := mdiag (fun c => - delta * eta 1%nat c - delta * delta / 2 * eta 2%nat c * VEd c) in
  mkCTm (fun q => t q (if (q =? 2)%nat then base else mzero)) (fun q => dt q (if (q =? 2)%nat then dbase else mzero)).

(** sector.cpp:89-92: kron(I, diagonalize) * t * kron(I, diagonalize^T) *)
Definition rebase (Q : mat) (t : CTm) : CTm :=
  let f A := mmult n (mmult n Q A) (mtr Q) in mkCTm (fun q => f (cb t q)) (fun q => f (cdb t q)).

(** A sector: length, the transformed coefficients vs[0..8] and the matrix diagonalize. *)
Record csector := mkCS { cs_h : R; cs_vs : nat -> mat; cs_Q : mat }.

(** (vs[0].diagonal() - E) * delta *)
Definition VEd_of (s : csector) (E delta : R) : nat -> R := fun c => (cs_vs s 0%nat c c - E) * delta.
Definition cblocks_delta (s : csector) (E delta : R) : CTm :=
  blocksVEd CETA_delta (fun q i => mhorner (ctcoeff n (cs_vs s) (cs_h s) q i) delta CHMAX_delta) delta (VEd_of s E delta).
Definition cblocks_full (s : csector) (E : R) : CTm :=
  blocksVEd CETA_h (fun q i => ctcoeff_h n (cs_vs s) (cs_h s) q i) (cs_h s) (VEd_of s E (cs_h s)).
Definition cstep_delta (s : csector) (E delta : R) : CTm := rebase (cs_Q s) (cblocks_delta s E delta).
Definition cstep_full (s : csector) (E : R) : CTm := rebase (cs_Q s) (cblocks_full s E).

(** sector.cpp:95-105 calculateT(E, delta, use_h) *)
Definition ccalculateT (s : csector) (E delta : R) (use_h : bool) : CTm :=
  if Rleb (Rabs delta) EPS12 then CTid
  else if use_h && Rleb (Rabs (delta - cs_h s)) EPS12 then cstep_full s E
  else cstep_delta s E delta.
(** sector.cpp:107-114 calculateT(E, use_h) *)
Definition ccalculateT_h (s : csector) (E : R) (use_h : bool) : CTm :=
  if use_h then cstep_full s E else ccalculateT s E (cs_h s) false.
End CalculateT.

(** sector.cpp:21-35: the constructor; [V] are the coefficients getCoefficients returned, [Q] the eigenvectors of V[0].
    vs[i] = +-1 * diagonalize^T * V[i] * diagonalize *)
Definition make_csector (n : nat) (V : nat -> mat) (Q : mat) (h : R) (d : dir) : csector :=
  mkCS h (fun i => mscale (if dir_eqb d Dbwd && Nat.odd i then -1 else 1) (mmult n (mmult n (mtr Q) (V i)) Q)) Q.
(** sector.cpp:37-49 setDirection *)
Definition set_direction (s : csector) (old new : dir) : csector :=
  if dir_eqb old new then s
  else if dir_eqb old Dbwd || dir_eqb new Dbwd
       then mkCS (cs_h s) (fun i => if Nat.odd i then mscale (-1) (cs_vs s i) else cs_vs s i) (cs_Q s) else s.
