(** Specification vocabulary for periodic and antiperiodic problems (Hill's equation), and the four numbers the periodic search
    reads off the matching. *)
From Coq Require Import Reals ZArith.
From Coq Require Import List.
From Verif Require Import Base M_Sectors M_Core S_Core S_Accuracy S_Zeros M_Periodic.
Import ListNotations.
Open Scope R_scope.

(** E is an eigenvalue with index n of the problem with y(hi) = sg y(lo), y'(hi) = sg y'(lo) (sg = 1: periodic, sg = -1:
    antiperiodic): a nontrivial solution satisfies the conditions and has n zeros in one period *)
Definition hill_eigen (V : R -> R) (lo hi : R) (l : list sec) (sg : R) (n : Z) (E : R) : Prop :=
  exists z z' zs, solution V E lo hi l z z' /\ nontrivial z z' lo hi /\ z hi = sg * z lo /\ z' hi = sg * z' lo /\
    lists_zeros z (fun x => lo < x <= hi) zs /\ n = Z.of_nat (length zs).

(** E is an eigenvalue of the problem with (y(hi), y'(hi)) = K (y(lo), y'(lo)) *)
Definition K_eigen (V : R -> R) (lo hi : R) (l : list sec) (K : M22) (E : R) : Prop :=
  exists z z', solution V E lo hi l z z' /\ nontrivial z z' lo hi /\
    z hi = m00 K * z lo + m01 K * z' lo /\ z' hi = m10 K * z lo + m11 K * z' lo.

(** the steps are exact and the equation has all its solutions at energy E *)
Definition hill_exact (calcT : sec -> R -> R -> bool -> Tm) (V : R -> R) (lo hi : R) (l : list sec) (c E : R) : Prop :=
  forall left right, exact_at calcT V lo hi l c left right E.

(** K = sg I *)
Definition Kscal (sg : R) : M22 := mkM sg 0 0 sg.

Section Numbers.
Variable calcT : sec -> R -> R -> bool -> Tm.
Variables (vm : R) (l : list sec) (m : Z) (lo hi : R) (K : M22).
(** periodic.cpp:80-83, 87-89: calculateMatchingError(ms->matchingError(E).first), first and second component *)
Definition hill_err (E : R) : R :=
  match periodicMatching calcT vm l m lo hi K E true with Ret (cols, _) => match calculateMatchingError cols with Ret (d, _) => d | _ => 0 end | _ => 0 end.
Definition hill_derr (E : R) : R :=
  match periodicMatching calcT vm l m lo hi K E true with Ret (cols, _) => match calculateMatchingError cols with Ret (_, d) => d | _ => 0 end | _ => 0 end.
(** periodic.cpp:138, 143, 189-190: ms->matchingError(E).second.minCoeff() and .maxCoeff() *)
Definition hill_tmin (E : R) : R := match periodicMatching calcT vm l m lo hi K E true with Ret (_, [a; b]) => Rmin a b | _ => 0 end.
Definition hill_tmax (E : R) : R := match periodicMatching calcT vm l m lo hi K E true with Ret (_, [a; b]) => Rmax a b | _ => 0 end.
End Numbers.
