(** C80: arithmetic with value / energy-derivative blocks. *)
From Coq Require Import Reals Lra.
From Coquelicot Require Import Coquelicot.
From Coq Require Import List Bool.
From Verif Require Import Base M_Sectors M_Core S_Core P_Core M_Half M_Periodic.
Import ListNotations.
Open Scope R_scope.

(** ---- C80 for one equation.  Every operation keeps "the stored derivative is the derivative with respect to the energy" *)
Theorem C80_derivatives (y z : R -> Y) (c d E : R) : Y_deriv y E -> Y_deriv z E ->
  Y_deriv (fun x => yopp (y x)) E /\ Y_deriv (fun x => yscale c (y x)) E /\ Y_deriv (fun x => reverse (y x)) E /\
  Y_deriv (fun x => ycomb [y x; z x] (c, d)) E.
Proof.
  intros [P Q] [P' Q'].
  assert (Hs : forall (f : R -> R) (l k : R), is_derive f E l -> is_derive (fun x => f x * k) E (l * k)).
  { intros f l k H. apply (is_derive_ext (fun x => k * f x)); [intro; apply Rmult_comm|]. replace (l * k) with (k * l) by ring. apply is_derive_scal, H. }
  unfold Y_deriv, yopp, yscale, reverse, ycomb; cbn [y0 y1 e0 e1 fst snd].
  split; [|split; [|split]]; split; auto.
  - exact (is_derive_opp (fun x => y0 (y x)) E _ P).
  - exact (is_derive_opp (fun x => y1 (y x)) E _ Q).
  - exact (is_derive_plus (fun x => y0 (y x) * c) (fun x => y0 (z x) * d) E _ _ (Hs _ _ c P) (Hs _ _ d P')).
  - exact (is_derive_plus (fun x => y1 (y x) * c) (fun x => y1 (z x) * d) E _ _ (Hs _ _ c Q) (Hs _ _ d Q')).
Qed.
(** Values and derivatives: -y, y * c, y reversed, the combination of two columns *)
Theorem C80_values (y z : Y) (c d : R) :
  (forall f, In f [y0; y1; e0; e1] -> f (yopp y) = - f y /\ f (yscale c y) = c * f y /\ f (ycomb [y; z] (c, d)) = c * f y + d * f z) /\
  (y0 (reverse y) = y0 y /\ y1 (reverse y) = - y1 y /\ e0 (reverse y) = e0 y /\ e1 (reverse y) = - e1 y).
Proof.
  split; [|unfold reverse; cbn; repeat split; ring].
  intros f [<-|[<-|[<-|[<-|[]]]]]; unfold yopp, yscale, ycomb; cbn; repeat split; ring.
Qed.
(** The operations commute with the propagation matrices, and negation, scaling by -1 and twice reversing fit together *)
Theorem C80_propagation (t : Tm) (y z : Y) (c d : R) :
  tmul t (yopp y) = yopp (tmul t y) /\ tmul t (yscale c y) = yscale c (tmul t y) /\
  tmul t (ycomb [y; z] (c, d)) = ycomb [tmul t y; tmul t z] (c, d) /\
  tdiv t (ycomb [y; z] (c, d)) = ycomb [tdiv t y; tdiv t z] (c, d) /\
  yopp (yopp y) = y /\ yopp y = yscale (-1) y /\ reverse (reverse y) = y /\ reverse (yopp y) = yopp (reverse y).
Proof.
  destruct y as [a b e f], z as [a' b' e' f'], t. unfold tmul, tdiv, yopp, yscale, ycomb, reverse; cbn. repeat apply conj; apply f_equal4; cbn [y0 y1 e0 e1 M_Core.t00 M_Core.t01 M_Core.t10 M_Core.t11 M_Core.d00 M_Core.d01 M_Core.d10 M_Core.d11]; ring.
Qed.
(** a != b is false exactly when all four numbers agree *)
Theorem C80_equality (a b : Y) : Yneq a b = false <-> a = b.
Proof.
  unfold Yneq. rewrite negb_false_iff, !andb_true_iff, !Reqb_true. destruct a, b; cbn. split; [intros [[[-> ->] ->] ->]; reflexivity|].
  intro H; injection H as -> -> -> ->. auto.
Qed.

Example C80_case : Y_deriv (fun E => mkY (E * E) E (2 * E) 1) 3 /\ Yneq Dirichlet Neumann = true /\ yopp (mkY 9 3 6 1) = mkY (-9) (-3) (-6) (-1).
Proof.
  split; [|split].
  - unfold Y_deriv; cbn. split; auto_derive; auto; ring.
  - destruct (Yneq Dirichlet Neumann) eqn:H; auto. apply C80_equality in H. injection H. lra.
  - unfold yopp; cbn; f_equal; lra.
Qed.

Print Assumptions C80_derivatives. Print Assumptions C80_values. Print Assumptions C80_propagation. Print Assumptions C80_equality.
