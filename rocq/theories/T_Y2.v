(** C80: arithmetic with value / energy-derivative blocks, n coupled equations and any number of columns. *)
From Coq Require Import Reals.
From mathcomp Require Import all_ssreflect ssralg ssrnum matrix rat.
From Verif Require Import Base M_Matscs M_Y.
Set Implicit Arguments.
Unset Strict Implicit.
Unset Printing Implicit Defensive.
Import GRing.Theory.
Local Open Scope ring_scope.

Section C80.
Context {F : fieldType} {n : nat}.
Notation CY := (@CY F n).

Lemma CY_eq r (a b : CY r) : cy a = cy b -> ce a = ce b -> a = b.
Proof. by case: a b => [? ?] [? ?] /= -> ->. Qed.

(** All entries of the four blocks, in terms of the entries of the operands *)
Theorem C80_blocks r c m (y : CY r) (f : F) (M : 'M[F]_(r, c)) (L : 'M[F]_(m, n)) (d : ydiff) :
  (forall i j, cblock d (cneg y) i j = - cblock d y i j /\ cblock d (cscale y f) i j = f * cblock d y i j) /\
  (forall i j, cblock d (cmulr y M) i j = \sum_k cblock d y i k * M k j) /\
  (forall i j, cblock d (ccol y j) i ord0 = cblock d y i j) /\
  (forall i j, cblock d (cmull L y) i j = \sum_k L i k * cblock d y k j).
Proof.
split; [|split; [|split]].
- move=> i j; split; case: d; by rewrite /= !mxE.
- move=> i j; case: d; rewrite /= !mxE; apply: eq_bigr => k _; by rewrite mxE.
- move=> i j; case: d; by rewrite /= !mxE.
- move=> i j; transitivity ((L *m cblock d y) i j); last by rewrite mxE.
  congr (fun_of_matrix _ i j).
  case: d; rewrite /= /kron2.
  + rewrite -{1}(vsubmxK (cy y)) mul_block_col !mul0mx addr0 add0r col_mxKu; exact: erefl.
  + rewrite -{1}(vsubmxK (cy y)) mul_block_col !mul0mx addr0 add0r col_mxKd; exact: erefl.
  + rewrite -{1}(vsubmxK (ce y)) mul_block_col !mul0mx addr0 add0r col_mxKu; exact: erefl.
  + rewrite -{1}(vsubmxK (ce y)) mul_block_col !mul0mx addr0 add0r col_mxKd; exact: erefl.
Qed.

(** Columns of a product are the combinations of columns, and selecting columns is a product *)
Theorem C80_columns r c (y : CY r) (M : 'M[F]_(r, c)) (a : 'I_c) (b : 'I_r) :
  ccol (cmulr y M) a = cmulr y (col a M) /\ ccol y b = cmulr y (col b 1%:M) /\ cmulr y 1%:M = y.
Proof.
split; [|split]; apply: CY_eq => /=.
- by rewrite !colE mulmxA.
- by rewrite !colE mulmxA.
- by rewrite colE [in RHS]colE mul1mx.
- by rewrite colE [in RHS]colE mul1mx.
- exact: mulmx1.
- exact: mulmx1.
Qed.
(** Propagating is compatible with everything that acts on columns: the solutions of the coupled problem form a linear
    space, for the values and for the energy derivatives alike; dividing as well *)
Theorem C80_commutes r c (t : @CT F n) (y : CY r) (M : 'M[F]_(r, c)) (a : 'I_r) (f : F) :
  cmul t (cmulr y M) = cmulr (cmul t y) M /\ cdiv t (cmulr y M) = cmulr (cdiv t y) M /\
  cmul t (ccol y a) = ccol (cmul t y) a /\ cdiv t (ccol y a) = ccol (cdiv t y) a /\
  cmul t (cneg y) = cneg (cmul t y) /\ cmul t (cscale y f) = cscale (cmul t y) f /\ crev (cmulr y M) = cmulr (crev y) M.
Proof.
split; [|split; [|split; [|split; [|split; [|split]]]]]; apply: CY_eq => /=.
- by rewrite mulmxA.
- by rewrite mulmxDl !mulmxA.
- by rewrite mulmxA.
- by rewrite mulmxBl !mulmxA.
- by rewrite !colE mulmxA.
- by rewrite !colE mulmxDl !mulmxA.
- by rewrite !colE mulmxA.
- by rewrite !colE mulmxBl !mulmxA.
- by rewrite mulmxN.
- by rewrite !mulmxN opprD.
- by rewrite -scalemxAr.
- by rewrite scalerDr -!scalemxAr.
- by rewrite mul_col_mx mulNmx -{1 2}(vsubmxK (cy y)) mul_col_mx col_mxKu col_mxKd.
- by rewrite mul_col_mx mulNmx -{1 2}(vsubmxK (ce y)) mul_col_mx col_mxKu col_mxKd.
Qed.
(** Changing the unknowns: composition, and solutions in new unknowns propagate with the transformed matrix *)
Theorem C80_change_of_unknowns r (t : @CT F n) (y : CY r) (L K : 'M[F]_n) : K *m L = 1%:M ->
  cmull L (cmull K y) = y /\ cmull (L *m K) y = cmull L (cmull K y) /\
  cmul (mkCT (kron2 L *m ct t *m kron2 K) (kron2 L *m cdt t *m kron2 K)) (cmull L y) = cmull L (cmul t y).
Proof.
move=> KL; have LK : L *m K = 1%:M by exact: mulmx1C.
have k2 (A B : 'M[F]_n) : kron2 A *m kron2 B = kron2 (A *m B).
  by rewrite /kron2 mulmx_block !mul0mx !mulmx0 !addr0 !add0r.
have k1 : kron2 (1%:M : 'M[F]_n) = 1%:M by rewrite /kron2 -scalar_mx_block.
split; [|split]; apply: CY_eq => /=.
- by rewrite mulmxA k2 LK k1 mul1mx.
- by rewrite mulmxA k2 LK k1 mul1mx.
- by rewrite mulmxA k2.
- by rewrite mulmxA k2.
- by rewrite -!mulmxA (mulmxA (kron2 K)) k2 KL k1 mul1mx.
- by rewrite mulmxDr -!mulmxA !(mulmxA (kron2 K)) k2 KL k1 !mul1mx.
Qed.
(** a == b exactly when all the entries agree, a != b otherwise *)
Theorem C80_equality_all r (a b : CY r) :
  (ceq a b = true <-> forall d i j, cblock d a i j = cblock d b i j) /\ cneq a b = negb (ceq a b).
Proof.
split=> //; split.
- by case/andP=> /eqP A /eqP B d i j; case: d; rewrite /= ?A ?B.
- move=> H; rewrite /ceq; apply/andP; split; apply/eqP.
  + rewrite -(vsubmxK (cy a)) -(vsubmxK (cy b)); congr col_mx; apply/matrixP => i j; [exact: (H YNone)|exact: (H YdX)].
  + rewrite -(vsubmxK (ce a)) -(vsubmxK (ce b)); congr col_mx; apply/matrixP => i j; [exact: (H YdE)|exact: (H YdXdE)].
Qed.
(** The two standard starting values: every solution started at a point is a combination of the columns of the two *)
Theorem C80_start r (y : CY r) (t : @CT F n) : ce y = 0 ->
  cmul t y = mkCY (cy (cmul t (cmulr cNeumann (cblock YNone y))) + cy (cmul t (cmulr cDirichlet (cblock YdX y))))
                  (ce (cmul t (cmulr cNeumann (cblock YNone y))) + ce (cmul t (cmulr cDirichlet (cblock YdX y)))).
Proof.
move=> E; apply: CY_eq => /=.
- rewrite -mulmxDr !mul_col_mx !mul0mx !mul1mx add_col_mx addr0 add0r vsubmxK; exact: erefl.
- rewrite E !mul0mx !mulmx0 !add0r -mulmxDr !mul_col_mx !mul0mx !mul1mx add_col_mx addr0 add0r vsubmxK; exact: erefl.
Qed.
End C80.

Example C80_case2 : exists L K : 'M[rat]_2, K *m L = 1%:M /\ L != 1%:M.
Proof.
exists (\matrix_(i, j) (if i == j then 1 else if (i < j)%N then 1 else 0)), (\matrix_(i, j) (if i == j then 1 else if (i < j)%N then -1 else 0)).
split.
- apply/matrixP => i j; rewrite !mxE !big_ord_recl big_ord0 !mxE; by case: i => [[|[|//]] ?]; case: j => [[|[|//]] ?].
- apply/eqP => /matrixP /(_ ord0 (lift ord0 ord0)); rewrite !mxE /= => /eqP. by rewrite oner_eq0.
Qed.

Print Assumptions C80_blocks. Print Assumptions C80_columns. Print Assumptions C80_commutes.
Print Assumptions C80_change_of_unknowns. Print Assumptions C80_equality_all. Print Assumptions C80_start.
