(** Specification vocabulary for one channel of a coupled problem without coupling. *)
From Coq Require Import Reals.
From Coquelicot Require Import Coquelicot.
From Verif Require Import Base M_Sectors S_Eta.
Open Scope R_scope.

(** exp(i t) *)
Definition cis (t : R) : C := (cos t, sin t).
(** z is a solution of z'' = w z on [p, q], with slope z' *)
Definition chan (w p q : R) (z z' : R -> R) : Prop :=
  (forall x, p <= x <= q -> continuous z x /\ continuous z' x) /\ (forall x, p < x < q -> is_derive z x (z' x) /\ is_derive z' x (w * z x)).
(** the exact values of eta_0 and eta_1 *)
Definition eta2 (Z : R) : R * R := (eta 0 Z, eta 1 Z).
(** the point of the sector nearest to x, and its distance from the end where the sector starts *)
Definition reachP {P} (s : sector R P) (x : R) : R := Rmax (smin s) (Rmin x (smax s)).
Definition base_dist {P} (s : sector R P) (x : R) : R := match sdir s with Dfwd => reachP s x - smin s | _ => smax s - reachP s x end.
