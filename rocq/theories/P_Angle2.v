(** Conjoined bases stay conjoined, and their phase is defined. *)
From Coq Require Import Reals Lra.
From Coquelicot Require Import Complex.
From Coq Require Import List.
From mathcomp Require Import ssreflect ssrfun ssrbool eqtype ssrnat seq fintype bigop ssralg poly matrix mxalgebra.
From Verif Require Import Base M_Sectors M_Core M_Matscs RCField M_Angle S_Channel P_Arg S_Angle P_Angle.
Import GRing.Theory.
Delimit Scope R_scope with Re.
Local Open Scope ring_scope.

Definition Re_ (z : C) : R := fst z.
Definition Im_ (z : C) : R := snd z.
Fact Re_additive : additive Re_. Proof. by []. Qed.
Fact Im_additive : additive Im_. Proof. by []. Qed.
Canonical Re_add := Additive Re_additive.
Canonical Im_add := Additive Im_additive.
Lemma Re_mul (x y : C) : Re_ (x * y) = Re_ x * Re_ y - Im_ x * Im_ y. Proof. by []. Qed.
Lemma Im_mul (x y : C) : Im_ (x * y) = Re_ x * Im_ y + Im_ x * Re_ y. Proof. by []. Qed.

Lemma sumsq_nonneg (I : finType) (f : I -> R) : (0 <= \sum_i (f i * f i)%R)%Re.
Proof. elim/big_ind: _ => [|x y Hx Hy|i _]; [exact: Rle_refl|exact: Rplus_le_le_0_compat|exact: Rle_0_sqr]. Qed.
Lemma sumsq_zero (I : finType) (f : I -> R) : \sum_i (f i * f i) = 0 -> forall i, f i = 0.
Proof.
  move=> H i. rewrite (bigD1 i) //= in H. set t := \sum_(_ | _) _ in H.
  have T : (0 <= t)%Re. { rewrite /t. elim/big_ind: _ => [|x y Hx Hy|j _]; [exact: Rle_refl|exact: Rplus_le_le_0_compat|exact: Rle_0_sqr]. }
  have Q := Rle_0_sqr (f i). change ((f i * f i + t)%Re = 0%Re) in H. rewrite /Rsqr in Q. change (f i = 0%Re). nra.
Qed.

Section Conj.
Context {n : nat} {P : Type}.
Notation CYn := (@CY R_fieldType n n).

Lemma col_norm (u : 'cV[R]_n) : (u^T *m u) ord0 ord0 = \sum_i (u i ord0 * u i ord0).
Proof. rewrite mxE. by apply: eq_bigr => i _; rewrite mxE. Qed.
Lemma conjoined_regular (y : CYn) : conjoined y -> regular y.
Proof.
  move=> [S I] D. rewrite /det_minus -yminus_val -det_tr in D.
  have /det0P [v v0 Hv] : \det (yminus y)^T == 0 by apply/eqP.
  set Y := Yof y in S I. set Y' := Y'of y in S I.
  set a : 'cV[R]_n := \col_i Re_ (v ord0 i). set b : 'cV[R]_n := \col_i Im_ (v ord0 i).
  have E : forall i, \sum_j v ord0 j * yminus y i j = 0.
  { move=> i. move/rowP: Hv => /(_ i). rewrite [LHS]mxE [RHS]mxE => Q. rewrite -[RHS]Q. apply: eq_bigr => j _. by rewrite [in RHS]mxE. }
  have E1 : Y' *m a + Y *m b = 0.
  { apply/colP=> i. rewrite !mxE. have := congr1 Re_ (E i). rewrite raddf_sum raddf0 => Q. rewrite -[RHS]Q. rewrite -big_split /=. apply: eq_bigr => j _.
    rewrite [a j ord0]mxE [b j ord0]mxE [yminus y i j]mxE.
    change (Y' i j * Re_ (v ord0 j) + Y i j * Im_ (v ord0 j) = Re_ (v ord0 j) * Y' i j - Im_ (v ord0 j) * - Y i j). by rewrite mulrN opprK mulrC [Y i j * _]mulrC. }
  have E2 : Y' *m b - Y *m a = 0.
  { apply/colP=> i. rewrite !mxE. have := congr1 Im_ (E i). rewrite raddf_sum raddf0 => Q. rewrite -[RHS]Q. rewrite -sumrB /=. apply: eq_bigr => j _.
    rewrite [a j ord0]mxE [b j ord0]mxE [yminus y i j]mxE.
    change (Y' i j * Im_ (v ord0 j) - Y i j * Re_ (v ord0 j) = Re_ (v ord0 j) * - Y i j + Im_ (v ord0 j) * Y' i j). by rewrite mulrN addrC [_ * Y' i j]mulrC [Re_ _ * _]mulrC. }
  have F1 : Y' *m a = - (Y *m b) by apply/eqP; rewrite -addr_eq0; apply/eqP.
  have F2 : Y' *m b = Y *m a by apply/eqP; rewrite -subr_eq0; apply/eqP.
  have K : (Y *m a)^T *m (Y *m a) = - ((Y *m b)^T *m (Y *m b)).
  { transitivity (a^T *m (Y^T *m Y') *m b); first by rewrite -{2}F2 trmx_mul !mulmxA.
    rewrite S. transitivity ((Y' *m a)^T *m (Y *m b)); first by rewrite trmx_mul !mulmxA.
    by rewrite F1 linearN /= mulNmx. }
  have Z : \sum_i ((Y *m a) i ord0 * (Y *m a) i ord0) = 0 /\ \sum_i ((Y *m b) i ord0 * (Y *m b) i ord0) = 0.
  { have := congr1 (fun m : 'M_1 => m ord0 ord0) K. rewrite /= [in X in _ = X]mxE !col_norm.
    have A := sumsq_nonneg _ (fun i => (Y *m a) i ord0). have B := sumsq_nonneg _ (fun i => (Y *m b) i ord0).
    move: A B. set p := \sum_i _. set q := \sum_i _. move=> A B Q. change (p = Ropp q) in Q. split; [change (p = 0%Re)|change (q = 0%Re)]; lra. }
  case: Z => Z1 Z2.
  have Ya : Y *m a = 0 by apply/colP=> i; rewrite [RHS]mxE; exact: (sumsq_zero _ _ Z1 i).
  have Yb : Y *m b = 0 by apply/colP=> i; rewrite [RHS]mxE; exact: (sumsq_zero _ _ Z2 i).
  have a0 : a = 0 by apply: I; rewrite // F1 Yb oppr0.
  have b0 : b = 0 by apply: I; rewrite // F2 Ya.
  move/eqP: v0. apply. apply/rowP=> i. rewrite [RHS]mxE. rewrite [v ord0 i]surjective_pairing.
  move/colP: a0 => /(_ i). rewrite !mxE. rewrite /Re_ => ->. move/colP: b0 => /(_ i). rewrite !mxE. by rewrite /Im_ => ->.
Qed.

(** the Wronskian of two matrices of solutions *)
Definition wr {r1 r2 : nat} (u : 'M[R]_(n + n, r1)) (v : 'M[R]_(n + n, r2)) : 'M[R]_(r1, r2) :=
  (usubmx u)^T *m dsubmx v - (dsubmx u)^T *m usubmx v.
Lemma conjoined_wr (y : CYn) : conjoined y <-> wr (cy y) (cy y) = 0 /\ forall c : 'cV[R]_n, cy y *m c = 0 -> c = 0.
Proof.
  rewrite /conjoined /Yof /Y'of /wr. split=> [[A B]|[A B]]; split.
  - by rewrite A subrr.
  - move=> c Hc. apply: B; rewrite ?mul_usub_mx ?mul_dsub_mx Hc; exact: linear0.
  - by apply/eqP; rewrite -subr_eq0; apply/eqP.
  - move=> c H1 H2. apply: B. rewrite -[cy y *m c]vsubmxK -mul_usub_mx -mul_dsub_mx H1 H2. exact: col_mx0.
Qed.
Lemma symplectic_inj (t : @CT R_fieldType n) (x : 'cV[R]_(n + n)) : symplectic t -> ct t *m x = 0 -> x = 0.
Proof.
  move=> S H.
  have W : forall v : 'cV[R]_(n + n), wr x v = 0.
  { move=> v. rewrite /wr. rewrite -(S _ _ x v) H !linear0 !mul0mx. exact: subrr. }
  have Z (u : 'cV[R]_n) : u^T *m u = 0 -> u = 0.
  { move=> Q. have := congr1 (fun m : 'M_1 => m ord0 ord0) Q. rewrite /= [RHS]mxE col_norm => Q2. apply/colP=> i. rewrite [RHS]mxE. exact: (sumsq_zero _ _ Q2). }
  have T0 : usubmx x = 0. { apply: Z. have := W (col_mx 0 (usubmx x)). by rewrite /wr col_mxKu col_mxKd mulmx0 subr0. }
  have B0 : dsubmx x = 0.
  { apply: Z. have := W (col_mx (dsubmx x) 0). rewrite /wr col_mxKu col_mxKd mulmx0 sub0r => /eqP. by rewrite oppr_eq0 => /eqP. }
  by rewrite -[x]vsubmxK T0 B0 col_mx0.
Qed.
Lemma symplectic_unit (t : @CT R_fieldType n) : symplectic t -> ct t \in unitmx.
Proof.
  move=> S. rewrite -unitmx_tr unitmxE unitfE. apply/negP=> /det0P [v v0 Hv].
  move/eqP: v0. apply. apply: trmx_inj. rewrite trmx0. apply: (symplectic_inj t _ S). apply: trmx_inj. by rewrite trmx_mul trmxK Hv trmx0.
Qed.
Lemma conj_mul (t : @CT R_fieldType n) (y : CYn) : symplectic t -> conjoined y -> conjoined (cmul t y).
Proof.
  move=> S /conjoined_wr [W I]. apply/conjoined_wr. split=> /=; first by rewrite /wr S.
  move=> c Hc. apply: I. apply: (symplectic_inj t _ S). by rewrite mulmxA.
Qed.
Lemma conj_div (t : @CT R_fieldType n) (y : CYn) : symplectic t -> conjoined y -> conjoined (cdiv t y).
Proof.
  move=> S /conjoined_wr [W I]. have U := symplectic_unit t S. apply/conjoined_wr. split=> /=.
  - rewrite -[RHS]W /wr. have := S _ _ (invmx (ct t) *m cy y) (invmx (ct t) *m cy y). by rewrite !mulmxA mulmxV // !mul1mx => ->.
  - move=> c Hc. apply: I. have := congr1 (mulmx (ct t)) Hc. by rewrite !mulmxA mulmxV // mul1mx mulmx0.
Qed.
Lemma conj_rev (y : CYn) : conjoined y -> conjoined (crev y).
Proof.
  move=> [A B]. split; rewrite /Yof /Y'of /= col_mxKu col_mxKd.
  - by rewrite mulmxN linearN /= mulNmx; congr (- _).
  - move=> c H1 H2. apply: B; first exact: H1. move: H2. rewrite mulNmx => /eqP. by rewrite oppr_eq0 => /eqP.
Qed.

Variable calcT : sector R P -> R -> R -> bool -> @CT R_fieldType n.
Lemma conj_step s E u delta (y : CYn) : (forall d, symplectic (calcT s E d u)) -> conjoined y -> conjoined (cpropDelta calcT s E u delta y).
Proof.
  move=> S Hy. rewrite /cpropDelta.
  case: (dir_eqb _ _); case: (Rleb _ _); [apply: conj_rev|apply: conj_rev| |];
    first [apply: conj_mul|apply: conj_div]; try exact: S; try exact: Hy; exact: conj_rev.
Qed.
End Conj.
