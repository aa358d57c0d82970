(** Every complex matrix has eigenvalues: the function Eigen computes exists.  R is a real closed field (intermediate value theorem), so
    its complex extension, to which Coquelicot's C is isomorphic, is algebraically closed (mathcomp real-closed). *)
From Coq Require Import Reals Lra Ranalysis5.
From Coquelicot Require Import Coquelicot.
From mathcomp Require Import ssreflect ssrfun ssrbool eqtype ssrnat choice seq fintype bigop order ssralg ssrnum poly matrix mxpoly.
From mathcomp.real_closed Require Import complex.
From Verif Require Import Base RCField S_Angle.
Import GRing.Theory Num.Theory.
Delimit Scope R_scope with Re.
Local Open Scope ring_scope.

Definition rle (x y : R) : bool := if Rle_dec x y then true else false.
Definition rlt (x y : R) : bool := if Rlt_dec x y then true else false.
Lemma rleP x y : reflect (x <= y)%Re (rle x y). Proof. rewrite /rle. by case: Rle_dec => H; constructor. Qed.
Lemma rltP x y : reflect (x < y)%Re (rlt x y). Proof. rewrite /rlt. by case: Rlt_dec => H; constructor. Qed.
Fact rle0D (x y : R) : rle 0 x -> rle 0 y -> rle 0 (x + y).
Proof. move=> /rleP H1 /rleP H2. apply/rleP. exact: Rplus_le_le_0_compat. Qed.
Fact rle0M (x y : R) : rle 0 x -> rle 0 y -> rle 0 (x * y).
Proof. move=> /rleP H1 /rleP H2. apply/rleP. exact: Rmult_le_pos. Qed.
Fact rle0_anti (x : R) : rle 0 x -> rle x 0 -> x = 0.
Proof. move=> /rleP H1 /rleP H2. exact: Rle_antisym. Qed.
Fact rsub_ge0 (x y : R) : rle 0 (y - x) = rle x y.
Proof. apply/rleP/rleP => H. { change (0 <= y - x)%Re in H. lra. } change (0 <= y - x)%Re. lra. Qed.
Fact rle_total : total rle.
Proof. move=> x y. apply/orP. case: (Rle_lt_dec x y) => H; [left|right]; apply/rleP; lra. Qed.
Fact rnormN (x : R) : Rabs (- x) = Rabs x. Proof. exact: Rabs_Ropp. Qed.
Fact rge0_norm (x : R) : rle 0 x -> Rabs x = x. Proof. move=> /rleP H. apply: Rabs_pos_eq. exact: H. Qed.
Fact rlt_def (x y : R) : rlt x y = (y != x) && rle x y.
Proof.
  apply/rltP/andP => [H|[/eqP H1 /rleP H2]].
  - split; [apply/eqP; lra|apply/rleP; lra].
  - case: H2 => // H. by rewrite H in H1.
Qed.
Definition R_leMixin : realLeMixin R_idomainType := RealLeMixin rle0D rle0M rle0_anti rsub_ge0 (@rle_total 0) rnormN rge0_norm rlt_def.
Canonical R_porderType := POrderType ring_display R R_leMixin.
Canonical R_latticeType := LatticeType R R_leMixin.
Canonical R_distrLatticeType := DistrLatticeType R R_leMixin.
Canonical R_orderType := OrderType R rle_total.
Canonical R_numDomainType := NumDomainType R R_leMixin.
Canonical R_normedZmodType := NormedZmodType R R R_leMixin.
Canonical R_numFieldType := [numFieldType of R].
Canonical R_realDomainType := [realDomainType of R].
Canonical R_realFieldType := [realFieldType of R].

Lemma horner_cont (p : {poly R}) : continuity (fun x => p.[x] : R).
Proof.
  elim/poly_ind: p => [|p c IH].
  - move=> x. apply: (continuity_pt_ext (fun _ => 0%Re)); [move=> t; by rewrite horner0|]. apply: continuity_pt_const. by [].
  - move=> x. apply: (continuity_pt_ext (fun t => (p.[t] * t + c)%Re)); [move=> t; by rewrite hornerMXaddC|].
    apply: continuity_pt_plus; [apply: continuity_pt_mult; [exact: IH|exact: derivable_continuous_pt (derivable_pt_id x)]|apply: continuity_pt_const; by []].
Qed.
Lemma R_rcf : Num.real_closed_axiom [realFieldType of R].
Proof.
  move=> p a b /rleP Hab /andP [/rleP Ha /rleP Hb].
  case: Ha => [Ha|Ha]; last by exists a; [apply/andP; split; apply/rleP; lra|apply/rootP].
  case: Hb => [Hb|Hb]; last by exists b; [apply/andP; split; apply/rleP; lra|apply/rootP].
  have Lt : (a < b)%Re. { case: Hab => // E. subst b. have := Rlt_trans _ _ _ Ha Hb. move/Rlt_irrefl. by []. }
  have [x [Hx E]] := IVT (fun x => p.[x] : R) a b (horner_cont p) Lt Ha Hb.
  exists x; [apply/andP; split; apply/rleP; lra|apply/rootP; exact: E].
Qed.
Canonical R_rcfType := RcfType R R_rcf.

Definition toC (z : complex R) : C := (complex.Re z, complex.Im z).
Definition ofC (z : C) : complex R := Complex (fst z) (snd z).
Lemma toC_ofC z : toC (ofC z) = z. Proof. by case: z. Qed.
Lemma toC_rmorphism : rmorphism toC.
Proof.
  split; [|split].
  - by move=> [a b] [c d].
  - by move=> [a b] [c d].
  - by [].
Qed.
Canonical toC_additive := Additive toC_rmorphism.
Canonical toC_rmorph := RMorphism toC_rmorphism.

Lemma eigs_exist n (m : 'M[C]_n) : {l : seq C | char_poly m = \prod_(z <- l) ('X - z%:P)}.
Proof.
  have [r H] := closed_field_poly_normal (char_poly (map_mx ofC m) : {poly complex R}).
  exists [seq toC z | z <- r].
  have E : map_mx toC (map_mx ofC m) = m by apply/matrixP=> i j; rewrite !mxE toC_ofC.
  rewrite -{1}E -map_char_poly H (eqP (char_poly_monic _)) scale1r rmorph_prod big_map. apply: eq_bigr => z _. by rewrite rmorphB /= map_polyX map_polyC.
Qed.
Definition some_eigs {n} (m : 'M[C]_n) : list C := proj1_sig (eigs_exist n m).
Theorem some_eigs_ok : forall n, @eigenvalues_ok n some_eigs.
Proof. move=> n m. exact: (proj2_sig (eigs_exist n m)). Qed.
