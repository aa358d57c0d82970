(** The local error estimate of a Matscs sector.

    Models /repo/matslise/matscs/sector.cpp:300-308 (Matscs<Scalar>::Sector::error), over the reals; the guard
    "if (isnan(error)) return infinity" is modelled separately, for any scalar type, as [nan_guard]. *)
From Coq Require Import Reals.
From Coquelicot Require Import Coquelicot.
From Coq Require Import List Bool.
From Verif Require Import Base M_Sectors M_Core M_Eta M_Formulas M_Coupled.
Import ListNotations.
Open Scope R_scope.

Section Error.
Variable etaf : nat -> R -> list R.
Variable n : nat.
(** sector.cpp:301: calculateTFromVEd<Scalar, true>(this, h, Zero(n)) *)
Definition cerror_full (s : csector) : CTm :=
  rebase n (cs_Q s) (blocksVEd etaf n CETA_h (fun q i => ctcoeff_h n (cs_vs s) (cs_h s) q i) (cs_h s) (fun _ => 0)).
(** sector.cpp:302: calculateTFromVEd<Scalar, false>(this, h, Zero(n)) *)
Definition cerror_delta (s : csector) : CTm :=
  rebase n (cs_Q s) (blocksVEd etaf n CETA_delta (fun q i => mhorner (ctcoeff n (cs_vs s) (cs_h s) q i) (cs_h s) CHMAX_delta) (cs_h s) (fun _ => 0)).
(** the (block, row, column) triples of a 2n x 2n matrix *)
Definition centries : list (nat * nat * nat) :=
  flat_map (fun q => flat_map (fun r => map (fun k => (q, r, k)) (seq 0 n)) (seq 0 n)) (seq 0 4).
(** sector.cpp:301-303: (.t - .t).array().abs().maxCoeff().  (Eigen asserts that the matrix is not empty; here the maximum of no
    entries is 0.) *)
Definition csector_error (s : csector) : R :=
  let a := cerror_full s in let b := cerror_delta s in
  fold_right Rmax 0 (map (fun e => let '(q, r, k) := e in Rabs (cb a q r k - cb b q r k)) centries).
End Error.

(** sector.cpp:304-306: if (isnan(error)) return infinity.  [isnan x] is x != x. *)
Definition nan_guard {T} `{Scalar T} (infinity : T) (error : T) : T := if seqb error error then error else infinity.
