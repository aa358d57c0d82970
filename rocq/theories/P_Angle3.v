(** Uncoupled problems: the angle of a diagonal matrix of solutions. *)
From Coq Require Import Reals Lra.
From Coquelicot Require Import Complex.
From Coq Require Import List.
From mathcomp Require Import ssreflect ssrfun ssrbool eqtype ssrnat seq fintype bigop ssralg poly matrix mxpoly.
From Verif Require Import Base M_Sectors M_Core S_Core M_Matscs RCField M_Angle S_Zeros S_Channel P_Arg S_Angle P_Angle.
Import GRing.Theory.
Delimit Scope R_scope with Re.
Local Open Scope ring_scope.

Lemma prod_perm (l1 l2 : seq C) : \prod_(z <- l1) ('X - z%:P) = \prod_(z <- l2) ('X - z%:P) -> perm_eq l1 l2.
Proof.
  elim: l1 l2 => [|a l1 IH] l2 H.
  - have := congr1 (fun p : {poly C} => size p) H. rewrite !size_prod_XsubC /=. by case: l2 {H}.
  - have Ha : a \in l2. { rewrite -root_prod_XsubC -H big_cons rootM root_XsubC eqxx. by []. }
    have Pm := perm_to_rem Ha. rewrite perm_sym. apply: (perm_trans Pm). rewrite perm_cons perm_sym. apply: IH.
    rewrite big_cons (perm_big _ Pm) big_cons /= in H. move: H. apply: mulfI. by rewrite polyXsubC_eq0.
Qed.

Lemma lsum_big (A : Type) (f : A -> R) (l : list A) : lsum (List.map f l) = \sum_(a <- l) f a.
Proof. elim: l => [|a l IH]; first by rewrite big_nil. by rewrite big_cons /= -IH. Qed.

Section Diag.
Context {n : nat} {P : Type}.
Notation CYn := (@CY R_fieldType n n).
Variable eigs : 'M[C]_n -> list C.
Hypothesis EO : eigenvalues_ok eigs.

Lemma angles_diag (d : 'rV[C]_n) : lsum (angles eigs (diag_mx d)) = \sum_i cangle (d ord0 i).
Proof using EO.
  have Pm : perm_eq (eigs (diag_mx d)) [seq d ord0 i | i <- enum 'I_n].
  { apply: prod_perm. rewrite -EO char_poly_trig ?diag_mx_is_trig // big_map big_enum /=. apply: eq_bigr => i _. by rewrite mxE eqxx mulr1n. }
  rewrite /angles lsum_big (perm_big _ Pm) /= big_map big_enum /=. by [].
Qed.

Variables (z z' phi : 'I_n -> R -> R) (p q : R).
Hypothesis N : forall i, nontrivial (z i) (z' i) p q.
Hypothesis L : forall i, lift (z i) (z' i) p q (phi i).

Lemma yplus_diag x (y : CYn) : diagonal_state z z' x y -> yplus y = diag_mx (\row_i ((z' i x, z i x) : C)).
Proof.
  move=> [H1 H2]. apply/matrixP=> i j. rewrite [LHS]mxE. rewrite -[yblock' y]/(Y'of y) -[yblock y]/(Yof y) H1 H2 !mxE. by case: eqP => [->|].
Qed.
Lemma yminus_diag x (y : CYn) : diagonal_state z z' x y -> yminus y = diag_mx (\row_i ((z' i x, (- z i x)%Re) : C)).
Proof.
  move=> [H1 H2]. apply/matrixP=> i j. rewrite [LHS]mxE. rewrite -[yblock' y]/(Y'of y) -[yblock y]/(Yof y) H1 H2 !mxE. case: eqP => [->|] //= _.
  rewrite !mulr0n. congr pair. exact: Ropp_0.
Qed.
Lemma entry_nz x i : (p <= x <= q)%Re -> ((z' i x, (- z i x)%Re) : C) <> RtoC 0.
Proof using N. move=> Hx [H1 H2]. case: (N i x Hx); [move=> K; apply: K; lra|by []]. Qed.
Lemma diag_regular x (y : CYn) : (p <= x <= q)%Re -> diagonal_state z z' x y -> regular y.
Proof using N.
  move=> Hx Hy. rewrite /regular /det_minus -yminus_val (yminus_diag x y Hy) det_diag. apply/eqP/prodf_neq0 => i _. rewrite mxE. apply/eqP. exact: entry_nz.
Qed.
Lemma theta_diag x (y : CYn) : (p <= x <= q)%Re -> diagonal_state z z' x y -> thetaM y = diag_mx (\row_i cis (2 * phi i x)).
Proof using N L.
  move=> Hx Hy. have Rg := diag_regular x y Hx Hy. rewrite (thetaM_val y Rg).
  have E : yplus y = diag_mx (\row_i cis (2 * phi i x)) *m yminus y.
  { rewrite (yplus_diag x y Hy) (yminus_diag x y Hy) mulmx_diag. congr diag_mx. apply/rowP=> i. rewrite !mxE.
    have Nz := entry_nz x i Hx. case: (start_polar p q (z i) (z' i) (phi i) (N i) (L i) x Hx) => c [Hc [E1 E2]].
    rewrite -(quotient_cis c (phi i x) Hc) -E1 -E2. 
    change ((z' i x, z i x) = Cmult (Cdiv (z' i x, z i x) (z' i x, (- z i x)%Re)) (z' i x, (- z i x)%Re)).
    rewrite /Cdiv -Cmult_assoc Cinv_l // Cmult_1_r. by []. }
  rewrite E -mulmxA mulmxV ?mulmx1 //. exact: yminus_unit.
Qed.

Variable ev : sector R P -> 'I_n -> R.
Theorem argdet_diag (s : sector R P) E delta p0 p1 (y0 y1 : CYn) : (forall i, chan (ev s i - E) p q (z i) (z' i)) ->
  (p <= p0 <= q)%Re -> (p <= p1 <= q)%Re -> diagonal_state z z' p0 y0 -> diagonal_state z z' p1 y1 -> dclamp s delta = (p1 - p0)%Re ->
  argdet eta2 eigs ev s E delta y0 y1 = lsum [seq (2 * (phi i p1 - phi i p0))%Re | i <- enum 'I_n].
Proof using EO N L.
  move=> Ch H0 H1 D0 D1 Hd. rewrite argdet_val Hd (theta_diag p1 y1 H1 D1) (theta_diag p0 y0 H0 D0) mulmx_diag !angles_diag !lsum_big !big_enum /=.
  change ((\sum_i (2 * Aref (ev s i - E) (p1 - p0))%Re + (\sum_i cangle ((\row_i0 cis (2 * phi i0 p1)) ord0 i) - \sum_i cangle ((\row_i0 ((\row_i1 cis (2 * Aref (ev s i1 - E) (p1 - p0))) ord0 i0 * (\row_i1 cis (2 * phi i1 p0)) ord0 i0)) ord0 i)) = \sum_i (2 * (phi i p1 - phi i p0))%Re)).
  rewrite -sumrB -big_split /=. apply: eq_bigr => i _. rewrite !mxE.
  rewrite -(channel_angle (ev s i - E) p q (z i) (z' i) (phi i) (Ch i) (N i) (L i) p0 p1 H0 H1).
  change (cis (2 * Aref (ev s i - E) (p1 - p0)) * cis (2 * phi i p0)) with (Cmult (cis (2 * Aref (ev s i - E) (p1 - p0))) (cis (2 * phi i p0))).
  rewrite cis_plus. have -> : (2 * Aref (ev s i - E) (p1 - p0) + 2 * phi i p0 = 2 * (phi i p0 + Aref (ev s i - E) (p1 - p0)))%Re by ring. by [].
Qed.
End Diag.

Lemma opp_diag {n} (f : 'I_n -> R) : GRing.opp (diag_mx (\row_i f i)) = diag_mx (\row_i (GRing.opp (f i))) :> 'M[R_fieldType]_n.
Proof. apply/matrixP => i j. rewrite !mxE. case: (i == j) => //=. by rewrite GRing.mulr0n GRing.oppr0. Qed.
Lemma opp_diag' {n} (f : 'I_n -> R) : GRing.opp (diag_mx (\row_i (GRing.opp (f i)))) = diag_mx (\row_i f i) :> 'M[R_fieldType]_n.
Proof. by rewrite -opp_diag opprK. Qed.
