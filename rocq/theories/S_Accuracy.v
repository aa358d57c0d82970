(** Specification for the accuracy of whole propagations: the potential represented by a sector at a point of
    it, and solutions of y'' = (V - E) y through a list of sectors. *)
From Coq Require Import Reals.
From Coquelicot Require Import Coquelicot.
From Coq Require Import List.
From Verif Require Import Base S_Legendre S_Formulas M_Sectors M_Core S_Core.
Import ListNotations.
Open Scope R_scope.

(** sum_k v_k h^k L_k at x, measured from the left end (forward sectors) or mirrored from the right end
    (backward sectors store the coefficients of the mirrored potential) *)
Definition sector_pot (s : sec) (x : R) : R :=
  sector_potential 15 (fun k => nth k (spay s) 0) (sh s) (match sdir s with Dbwd => smax s - x | _ => x - smin s end).

(** y with derivative y' solves y'' = (V - E) y inside every sector, y and y' are continuous on [lo, hi]: the usual notion of
    a solution when V may jump at sector boundaries *)
Definition solution (V : R -> R) (E lo hi : R) (l : list sec) (y y' : R -> R) : Prop :=
  (forall x, lo <= x <= hi -> continuous y x /\ continuous y' x) /\
  (forall s x, In s l -> smin s < x < smax s -> is_derive y x (y' x) /\ is_derive y' x ((V x - E) * y x)).

(** what is assumed of every sector: direction chosen, step between 10^-12 and H, bounded coefficients and mean distance to
    the energy, and potential represented to accuracy tau *)
Definition sector_ok (V : R -> R) (E B W H tau : R) (s : sec) : Prop :=
  directed s /\ / 10 ^ 12 < sh s <= H /\ (forall k, (1 <= k <= 15)%nat -> Rabs (nth k (spay s) 0) <= B) /\
  Rabs (v0 s - E) <= W /\ (forall x, smin s < x < smax s -> Rabs (V x - sector_pot s x) <= tau).

(** E is an eigenvalue of the exact problem with the given boundary values: a nontrivial solution starts with [left]
    at lo and is, at hi, parallel to [right] *)
Definition eigenvalue (V : R -> R) (E lo hi : R) (l : list sec) (left right : Y) : Prop :=
  exists y y', solution V E lo hi l y y' /\ y lo = y0 left /\ y' lo = y1 left /\ (y lo <> 0 \/ y' lo <> 0) /\ y hi * y1 right = y' hi * y0 right.
