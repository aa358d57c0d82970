(** Piecewise constant potentials: both variants of the step matrices give the same matching error. *)
From Coq Require Import String ZArith Reals Lra Lia Bool.
From Coquelicot Require Import Coquelicot.
From Coq Require Import List.
From Verif Require Import Base M_Search M_Sectors S_Sectors P_Lookup M_Core S_Core P_Core P_Core2 P_Prufer T_Core S_Accuracy S_Zeros
  S_Formulas M_Formulas P_Lift P_Lift2 P_Step P_Global2 P_Global5 P_Count P_Count2 P_Constant P_Sturm P_Sturm2 P_Sturm3 T_Zeros T_Sturm T_Search P_Newton P_Newton2.
Import ListNotations.
Open Scope R_scope.

Section Same.
Variables (V : R -> R) (lo hi : R) (l : list sec) (vm : R) (m : Z) (sm : sec) (left right : Y).
Hypothesis PC : constant_problem V lo hi l.
Hypothesis Hm : vget l m = Ret sm.
Hypothesis NL : nonzero left.
Hypothesis NR : nonzero right.
Notation cT := (calculateT eta_exact).
Notation c := (smax sm).
Notation me := (me_of cT vm l m lo hi left right).

Lemma propagate_same : forall E a y, a = lo \/ a = hi -> lo <= c <= hi -> lo <= hi -> nonzero y ->
  (exists z z', solution V E lo hi l z z' /\ z a = y0 y /\ z' a = y1 y) ->
  forall Z1 t1 Z2 t2, propagate cT vm l lo hi E y a c true = Ret (Z1, t1) -> propagate cT vm l lo hi E y a c false = Ret (Z2, t2) ->
  y0 Z1 = y0 Z2 /\ y1 Z1 = y1 Z2 /\ t1 = t2.
Proof using PC Hm.
  intros E a y Ha Hc Hlh Ny (z & z' & Sol & A & B) Z1 t1 Z2 t2 P1 P2. pose proof (constant_order V lo hi l PC) as Ho. pose proof PC as [PT _].
  pose proof (vget_In l m sm Hm) as Hin. pose proof PIpos as HP.
  assert (forall u s, In s l -> counting_ok cT V E u a c s) as K by (intro u; apply (constant_counting V lo hi l E u a c PC); [tauto|right; right; exists sm; auto]).
  destruct (resolved_bounded V l ltac:(intros s Hs; apply (K true s Hs))) as (M & HM & Bd).
  assert (lo <= a <= hi) as Hal by (destruct Ha as [-> | ->]; lra).
  assert (nontrivial z z' lo hi) as Nz. { apply (nontrivial_at V l lo hi M PT Ho Bd HM E z z' a Sol Hal). rewrite A, B. exact Ny. }
  destruct (propagate_exact cT vm l lo hi PT V E z z' Sol Nz Ho true a c y (K true) Hal Hc (eq_sym A) (eq_sym B)) as (W1 & s1 & p1 & Q1 & X0 & X1 & G1 & U1 & D1 & T1).
  destruct (propagate_exact cT vm l lo hi PT V E z z' Sol Nz Ho false a c y (K false) Hal Hc (eq_sym A) (eq_sym B)) as (W2 & s2 & p2 & Q2 & Y0 & Y1 & G2 & U2 & D2 & T2).
  rewrite P1 in Q1. injection Q1 as -> ->. rewrite P2 in Q2. injection Q2 as -> ->. split; [congruence|]. split; [congruence|].
  rewrite T1, T2. pose proof (scaling_pos vm E) as HS.
  assert (forall x, lo <= x <= hi -> scaling vm E * z x <> 0 \/ z' x <> 0) as Nsc by (apply (scaled_nz _ z z' lo hi HS Nz)).
  pose proof (lift_unique _ _ lo hi p1 p2 Nsc G1 G2) as L. pose proof (L a Hal) as La. pose proof (L c Hc) as Lc.
  assert (p1 a - p2 a = 0) as Za; [|lra].
  apply mult_pi_small.
  - apply (angles_pi (scaling vm E * z a) (z' a)); [apply Nsc, Hal|apply G1, Hal|apply G2, Hal].
  - destruct (Rle_lt_dec a c) as [Q|Q]; [specialize (U1 Q); specialize (U2 Q)|specialize (D1 Q); specialize (D2 Q)]; lra.
Qed.

Lemma me_parts : forall E, err_of me false E = err_of me true E /\ ang_of me false E = ang_of me true E.
Proof using PC Hm NL NR.
  intro E. pose proof (constant_order V lo hi l PC) as Ho. pose proof PC as [PT _]. pose proof (vget_In l m sm Hm) as Hin.
  destruct (order_in l lo hi PT Ho) as [Hlh O]. destruct (O sm Hin) as [O1 O2]. pose proof (Ho sm Hin) as O3.
  destruct (constant_exact_at V lo hi l m sm left right E PC Hm) as (_ & _ & SL & SR).
  destruct (matchingError_val cT vm l m lo hi E left right true sm PT ltac:(intros s Hs; left; apply Ho, Hs) Hm) as (t1 & t2 & A1 & A2 & A3).
  destruct (matchingError_val cT vm l m lo hi E left right false sm PT ltac:(intros s Hs; left; apply Ho, Hs) Hm) as (t3 & t4 & B1 & B2 & B3).
  cbv zeta in A3, B3.
  destruct (propagate_same E lo left ltac:(auto) ltac:(lra) ltac:(lra) NL SL _ _ _ _ A1 B1) as (C1 & C2 & C3).
  destruct (propagate_same E hi right ltac:(auto) ltac:(lra) ltac:(lra) NR SR _ _ _ _ A2 B2) as (D1 & D2 & D3).
  unfold err_of, ang_of, me_of. rewrite A3, B3. cbn [fst snd]. rewrite C1, C2, C3, D1, D2, D3. split; reflexivity.
Qed.
Hypothesis L0 : e0 left = 0. Hypothesis L1 : e1 left = 0. Hypothesis R0 : e0 right = 0. Hypothesis R1 : e1 right = 0.
Lemma constant_err_deriv : forall u E, is_derive (err_of me u) E (der_of me u E).
Proof using PC Hm L0 L1 R0 R1.
  intros u E. pose proof PC as [PT H]. apply (err_deriv cT vm l m sm lo hi left right u PT (constant_order V lo hi l PC) Hm E); auto.
  intros s d Hs. apply calculateT_constant_deriv. destruct (H s Hs) as (_ & _ & Hv & _). exact Hv.
Qed.
Lemma me_same : forall E, me E false = me E true.
Proof using PC Hm NL NR L0 L1 R0 R1.
  intro E. destruct (me_parts E) as [P1 P2].
  assert (der_of me false E = der_of me true E) as P3.
  { pose proof (constant_err_deriv true E) as D. apply (is_derive_ext _ (err_of me false)) in D; [|intro t; symmetry; apply me_parts].
    pose proof (is_derive_unique _ _ _ D) as U1. pose proof (is_derive_unique _ _ _ (constant_err_deriv false E)) as U2. congruence. }
  unfold err_of, der_of, ang_of in *. destruct (me E false) as [[a b] t], (me E true) as [[a' b'] t']. cbn [fst snd] in *.
  pose proof PIpos. assert (t = t') as -> by (apply (Rmult_eq_reg_r (/ PI)); [exact P2|apply Rinv_neq_0_compat; lra]). congruence.
Qed.
End Same.

Lemma newton_loop_same : forall (me : R -> bool -> R * R * R) tol, (forall E, me E false = me E true) -> forall n i E, newton_loop me tol n i E false = newton_loop me tol n i E true.
Proof.
  intros me tol H. induction n as [|n IH]; intros i E; [reflexivity|]. cbn [newton_loop]. rewrite H. destruct (me E true) as [[e d] t]. rewrite IH. reflexivity.
Qed.
Lemma newton_same : forall (me : R -> bool -> R * R * R) tol E, (forall E, me E false = me E true) -> newton me tol E false = newton me tol E true.
Proof. intros me tol E H. unfold newton. rewrite (newton_loop_same me tol H). reflexivity. Qed.
