(** The angle of coupled problems: the phase of det(Y' + iY) / det(Y' - iY). *)
From Coq Require Import Reals Lra.
From Coquelicot Require Import Complex.
From Coq Require Import List.
From mathcomp Require Import ssreflect ssrfun ssrbool eqtype ssrnat seq fintype bigop ssralg poly matrix mxpoly.
From Verif Require Import Base M_Sectors M_Core M_Matscs RCField M_Angle S_Channel P_Arg S_Angle.
Import GRing.Theory.
Delimit Scope R_scope with Re.
Local Open Scope ring_scope.

Lemma cdiv_nz : forall a b : C, b <> RtoC 0 -> a / b = Cdiv a b.
Proof.
  move=> a b Hb. rewrite /GRing.inv /=. change (Cmult a (C_inv b) = Cdiv a b). rewrite /C_inv. by case: eqP.
Qed.
Lemma pair_plus : forall a b : R, ((a, b) : C) = RtoC a + Ci_ * RtoC b.
Proof.
  move=> a b. change ((a, b) = Cplus (RtoC a) (Cmult Ci_ (RtoC b))). rewrite /Cplus /Cmult /Ci_ /RtoC /=. congr pair; ring.
Qed.
Lemma pair_minus : forall a b : R, ((a, Ropp b) : C) = RtoC a - Ci_ * RtoC b.
Proof.
  move=> a b. change ((a, Ropp b) = Cplus (RtoC a) (Copp (Cmult Ci_ (RtoC b)))). rewrite /Cplus /Cmult /Copp /Ci_ /RtoC /=. congr pair; ring.
Qed.

Section Phase.
Context {n : nat} {P : Type}.
Notation CYn := (@CY R_fieldType n n).
Variable eigs : 'M[C]_n -> list C.
Hypothesis EO : eigenvalues_ok eigs.

Lemma yplus_val (y : CYn) : yplus y = map_mx RtoC (Y'of y) + Ci_ *: map_mx RtoC (Yof y).
Proof. apply/matrixP=> i j. rewrite !mxE. exact: pair_plus. Qed.
Lemma yminus_val (y : CYn) : yminus y = map_mx RtoC (Y'of y) - Ci_ *: map_mx RtoC (Yof y).
Proof. apply/matrixP=> i j. rewrite !mxE. exact: pair_minus. Qed.
Lemma yminus_conj (y : CYn) : yminus y = map_mx conj (yplus y).
Proof. by apply/matrixP=> i j; rewrite !mxE. Qed.
Lemma det_conj (y : CYn) : det_minus y = conj (det_plus y).
Proof. by rewrite /det_minus /det_plus -yminus_val -yplus_val yminus_conj det_map_mx. Qed.
Lemma yminus_unit (y : CYn) : regular y -> yminus y \in unitmx.
Proof. move=> /eqP H. by rewrite unitmxE yminus_val unitfE. Qed.
Lemma thetaM_val (y : CYn) : regular y -> thetaM y = yplus y *m invmx (yminus y).
Proof. move=> H. by rewrite /thetaM trmx_mul trmxK trmx_inv trmxK. Qed.
Lemma det_theta (y : CYn) : regular y -> \det (thetaM y) = phase y.
Proof.
  move=> H. rewrite (thetaM_val y H) det_mulmx det_inv yplus_val yminus_val. rewrite -/(det_plus y) -/(det_minus y). exact: cdiv_nz.
Qed.
Lemma phase_cis (y : CYn) : regular y -> exists t, phase y = cis t.
Proof.
  rewrite /regular /phase det_conj. move: (det_plus y) => [a b] H. 
  case: (atan2_spec b a) => [|r [Hr [Ea [Eb _]]]].
  - case: (Req_dec a 0) => Ha; last by left. right=> Hb. apply: H. rewrite /conj /=. rewrite Ha Hb. congr pair. exact: Ropp_0.
  - exists (2 * atan2 b a)%Re. rewrite /conj /=. move: (atan2 b a) Ea Eb => t -> ->. apply: quotient_cis. lra.
Qed.

(** the sum of the angles of the eigenvalues *)
Lemma angles_sum (l : list C) : (forall z, List.In z l -> z <> RtoC 0) ->
  exists r, (0 < r)%Re /\ \prod_(z <- l) z = Cmult (RtoC r) (cis (lsum (List.map cangle l))).
Proof.
  elim: l => [|z l IH] Hl.
  - exists R1. split; first lra. rewrite big_nil /=. rewrite /cis cos_0 sin_0. rewrite /Cmult /RtoC /=. congr pair; ring.
  - case: IH => [u Hu|r [Hr E]]; first by apply: Hl; right.
    case: (cangle_spec z (Hl z (or_introl erefl))) => s [Hs [Ez _]]. exists (s * r)%Re. split; first exact: Rmult_lt_0_compat.
    rewrite big_cons E. change (Cmult z (Cmult (RtoC r) (cis (lsum (List.map cangle l)))) = Cmult (RtoC (s * r)) (cis (cangle z + lsum (List.map cangle l)))).
    rewrite {1}Ez -cis_plus RtoC_mult. ring.
Qed.
Lemma eigs_prod m : \prod_(z <- eigs m) z = \det m.
Proof using EO.
  have S : size (eigs m) = n.
  { have := size_char_poly m. rewrite (EO m) size_prod_XsubC. by case. }
  have := char_poly_det m. rewrite (EO m) -horner_coef0 horner_prod.
  have -> : \prod_(z <- eigs m) ('X - z%:P).[0] = (-1) ^+ n * \prod_(z <- eigs m) z.
  { rewrite -[in RHS]S. elim: (eigs m) => [|z l IH]; first by rewrite !big_nil expr0 mulr1.
    rewrite !big_cons IH /= exprS hornerXsubC sub0r mulN1r !mulNr. congr (- _). by rewrite mulrCA. }
  move=> E. by apply: (@mulfI _ ((-1) ^+ n)); first by rewrite signr_eq0.
Qed.
Lemma eigs_nz m : \det m <> RtoC 0 -> forall z, List.In z (eigs m) -> z <> RtoC 0.
Proof using EO.
  move=> H z. rewrite -(eigs_prod m) in H. move: H. elim: (eigs m) => [|u l IH] //= H [<-|Hz] Z.
  - apply: H. rewrite big_cons Z. by rewrite mul0r.
  - apply: (IH _ Hz Z) => Q. apply: H. by rewrite big_cons Q mulr0.
Qed.
Lemma angles_cis m t : \det m = cis t -> cis (lsum (angles eigs m)) = \det m.
Proof using EO.
  move=> H. case: (angles_sum (eigs m)) => [|r [Hr E]].
  - apply: eigs_nz. rewrite H. exact: cis_nz.
  - rewrite eigs_prod H in E. case: (scaled_cis r t _ Hr E) => _ E2. by rewrite H E2.
Qed.
Lemma cis_sum (A : eqType) (f : A -> R) (l : seq A) : cis (lsum [seq f i | i <- l]) = \prod_(i <- l) cis (f i).
Proof.
  elim: l => [|a l IH]; first by rewrite big_nil /cis cos_0 sin_0. rewrite big_cons /= -IH. by rewrite -cis_plus.
Qed.
Lemma lsum_scale (A : eqType) (f : A -> R) (l : seq A) : (2 * lsum [seq f i | i <- l])%Re = lsum [seq (2 * f i)%Re | i <- l].
Proof. elim: l => [|a l IH]; first exact: Rmult_0_r. rewrite !map_cons. change (2 * (f a + lsum [seq f i | i <- l]) = 2 * f a + lsum [seq (2 * f i)%Re | i <- l])%Re. rewrite -IH. ring. Qed.

Variable ev : sector R P -> 'I_n -> R.
Definition dclamp (s : sector R P) (delta : R) : R := if Rltb (csh s) delta then csh s else if Rltb delta (- csh s)%Re then (- csh s)%Re else delta.

Lemma argdet_val (s : sector R P) E delta (y0 y1 : CYn) : argdet eta2 eigs ev s E delta y0 y1 =
  (lsum [seq (2 * Aref (ev s i - E) (dclamp s delta))%Re | i <- enum 'I_n] +
   (lsum (angles eigs (thetaM y1)) - lsum (angles eigs (diag_mx (\row_i cis (2 * Aref (ev s i - E) (dclamp s delta))) *m thetaM y0))))%Re.
Proof.
  rewrite /argdet -/(dclamp s delta) lsum_scale. set d := dclamp s delta.
  have -> : [seq (2 * ref_angle d (d * d * (ev s i - E)) (fst (eta2 (d * d * (ev s i - E)))) (snd (eta2 (d * d * (ev s i - E)))))%Re | i <- enum 'I_n] = [seq (2 * Aref (ev s i - E) d)%Re | i <- enum 'I_n].
  { apply: eq_map => i. congr (Rmult 2 _). exact: ref_angle_val. }
  have -> : \row_i ref_turn d (fst (eta2 (d * d * (ev s i - E))%Re)) (snd (eta2 (d * d * (ev s i - E))%Re)) = \row_i cis (2 * Aref (ev s i - E) d)%Re.
  { apply/rowP=> i. rewrite !mxE. exact: ref_turn_val. }
  by [].
Qed.
Theorem argdet_phase (s : sector R P) E delta (y0 y1 : CYn) : regular y0 -> regular y1 ->
  Cmult (cis (argdet eta2 eigs ev s E delta y0 y1)) (phase y0) = phase y1.
Proof using EO.
  move=> R0 R1. rewrite argdet_val. set d := dclamp s delta. set tot := lsum [seq _ | i <- enum 'I_n].
  set turn := diag_mx _.
  have Dt : \det turn = cis tot.
  { rewrite /turn det_diag /tot cis_sum big_enum /=. by apply: eq_bigr => i _; rewrite mxE. }
  case: (phase_cis y0 R0) => t0 E0. case: (phase_cis y1 R1) => t1 E1.
  have B : cis (lsum (angles eigs (thetaM y1))) = phase y1.
  { rewrite (angles_cis _ t1); by rewrite det_theta. }
  have A : cis (lsum (angles eigs (turn *m thetaM y0))) = cis (tot + t0).
  { have Dm : \det (turn *m thetaM y0) = cis (tot + t0) by rewrite det_mulmx Dt det_theta // E0 -cis_plus. by rewrite (angles_cis _ _ Dm). }
  rewrite E0. set al := lsum (angles eigs (turn *m thetaM y0)) in A *. set be := lsum (angles eigs (thetaM y1)) in B *.
  rewrite -B cis_plus. 
  have -> : (tot + (be - al) + t0 = be + (tot + t0 - al))%Re by ring.
  rewrite -cis_plus. have -> : cis (tot + t0 - al) = RtoC 1.
  { rewrite /Rminus -cis_plus -A cis_plus Rplus_opp_r. by rewrite /cis cos_0 sin_0. }
  exact: Cmult_1_r.
Qed.
End Phase.
