(** Specification vocabulary for symmetric problems: the problem on [-L, L] whose right half is the given problem on [0, L]. *)
From Coq Require Import Reals ZArith.
From Coquelicot Require Import Coquelicot.
From Coq Require Import List.
From Verif Require Import Base M_Sectors S_Sectors M_Core S_Core S_Accuracy S_Zeros.
Import ListNotations.
Open Scope R_scope.

(** the mirror image of a sector at 0 *)
Definition reflected (s : sec) : sec := mkSector (- smax s) (- smin s) (match sdir s with Dfwd => Dbwd | Dbwd => Dfwd | Dnone => Dnone end) (spay s).
(** the sectors of [-L, L]: those of [0, L] and their mirror images *)
Definition both_halves (l : list sec) : list sec := map reflected (rev l) ++ l.
(** V is an even function (inside the sectors; the values at sector boundaries play no role) *)
Definition even_potential (V : R -> R) (l : list sec) : Prop := forall s x, In s l -> smin s < x < smax s -> V (- x) = V x.
(** V is bounded on the sectors *)
Definition bounded_on (V : R -> R) (l : list sec) : Prop := exists M, forall s x, In s l -> smin s < x < smax s -> Rabs (V x) <= M.
(** the same boundary condition as seen from the other end: value s0, slope -s1 *)
Definition same_seen_from_left (s : Y) : Y := mkY (y0 s) (- y1 s) 0 0.

(** E is an eigenvalue with index n of the symmetric problem on [-L, L] with the condition y(x) s1 = +- y'(x) s0 at x = +-L,
    i.e. the boundary condition is symmetric, too *)
Definition symmetric_index (V : R -> R) (L : R) (l : list sec) (side : Y) : Z -> R -> Prop :=
  eigen_index V (- L) L (both_halves l) (same_seen_from_left side) side.
