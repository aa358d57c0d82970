(** Coupled problems with a piecewise constant potential matrix: the step matrices of the code are symplectic and, without coupling, exact. *)
From Coq Require Import Reals Lra.
From Coquelicot Require Import Complex.
From Coq Require Import List.
From mathcomp Require Import ssreflect ssrfun ssrbool eqtype ssrnat seq fintype bigop ssralg matrix.
From Verif Require Import Base M_Sectors M_Core S_Core S_Formulas M_Formulas M_Coupled M_Matscs RCField M_Angle S_Zeros S_Channel P_Constant P_Arg S_Angle P_Angle P_Angle2 P_Angle3 P_Angle4 M_CoupledRun S_CoupledRun P_CConst.
Import GRing.Theory.
Delimit Scope R_scope with Re.
Local Open Scope ring_scope.

Lemma rsum_big n (f : nat -> R) : rsum n f = \sum_(i < n) f i.
Proof. elim: n => [|n IH]; first by rewrite big_ord0. by rewrite big_ord_recr /= -IH. Qed.

Lemma zalgR (a b c d e f : R) : (a + b + (c + e + d) + (- (a + (b + f)) + - (c + d)) = e + - f)%Re.
Proof. ring. Qed.

Lemma zz1 (a b : R) : (0 * a * b = 0)%Re. Proof. ring. Qed.
Lemma zz2 (a b : R) : (a * b * 0 = 0)%Re. Proof. ring. Qed.
Lemma zz3 (a q : R) : (q * q = 1)%Re -> (q * a * q = a)%Re. Proof. move=> H. rewrite -{2}(Rmult_1_r a) -H. ring. Qed.

Section Const.
Variable n : nat.
Notation sec := (sector R csector).
Definition QDQ (s : sec) (d : 'I_n -> R) : 'M[R_fieldType]_n := diagonalize n s *m diag_mx (\row_i d i) *m (diagonalize n s)^T.
Lemma QDQ_entry s d i j : QDQ s d i j = \sum_(k < n) (cs_Q (spay s) i k * d k * cs_Q (spay s) j k)%Re.
Proof. rewrite /QDQ mxE. apply: eq_bigr => k _. by rewrite mul_mx_diag !mxE. Qed.
Lemma QDQ_mul s d e : well_formed n s -> QDQ s d *m QDQ s e = QDQ s (fun i => d i * e i)%Re.
Proof.
  move=> [_ [_ [_ H]]]. have H' : (diagonalize n s)^T *m diagonalize n s = 1%:M by apply: mulmx1C.
  rewrite /QDQ !mulmxA -(mulmxA _ _ (diagonalize n s)) H' mulmx1 -(mulmxA _ (diag_mx _) (diag_mx _)) mulmx_diag. congr (_ *m diag_mx _ *m _). apply/rowP=> i. by rewrite !mxE.
Qed.
Lemma QDQ_tr s d : (QDQ s d)^T = QDQ s d.
Proof. by rewrite /QDQ !trmx_mul trmxK tr_diag_mx mulmxA. Qed.
Lemma QDQ_1 s : well_formed n s -> QDQ s (fun _ => 1) = 1%:M.
Proof. move=> [_ [_ [_ H]]]. rewrite /QDQ. have -> : \row__ (1 : R_fieldType) = const_mx 1 :> 'rV_n by apply/rowP=> i; rewrite !mxE. by rewrite diag_const_mx mulmx1 H. Qed.
Lemma QDQ_sub s d e : QDQ s d - QDQ s e = QDQ s (fun i => d i - e i)%Re.
Proof. rewrite /QDQ -mulmxBl -mulmxBr. congr (_ *m _ *m _). rewrite -raddfB. congr diag_mx. apply/rowP=> i. by rewrite !mxE. Qed.
Lemma QDQ_ext s d e : (forall i, d i = e i) -> QDQ s d = QDQ s e.
Proof. move=> H. rewrite /QDQ. congr (_ *m diag_mx _ *m _). apply/rowP=> i. by rewrite !mxE. Qed.

Lemma orth_entries s : well_formed n s -> forall a b, (a < n)%coq_nat -> (b < n)%coq_nat ->
  rsum n (fun j => cs_Q (spay s) a j * cs_Q (spay s) b j)%Re = (if (a =? b)%nat then 1 else 0)%Re.
Proof.
  move=> [_ [_ [_ H]]] a b /ltP Ha /ltP Hb. rewrite rsum_big.
  have K := congr1 (fun m : 'M_n => m (Ordinal Ha) (Ordinal Hb)) H. rewrite /= !mxE in K. move: K.
  under eq_bigr do rewrite !mxE /=. move=> ->. rewrite -val_eqE /=.
  case: (Nat.eqb_spec a b) => [->|Ne]; first by rewrite eqxx. case: eqP => // /Ne [].
Qed.

Definition exact_blocks (s : sec) (E d : R) : 'M[R_fieldType]_(n + n) :=
  block_mx (QDQ s (fun i => Cw (code_ev n s i - E) d)) (QDQ s (fun i => Sw (code_ev n s i - E) d))
    (QDQ s (fun i => (code_ev n s i - E) * Sw (code_ev n s i - E) d)%Re) (QDQ s (fun i => Cw (code_ev n s i - E) d)).
Lemma blocks_of s E d u d' : (forall q r k, (q < 4)%coq_nat -> (r < n)%coq_nat -> (k < n)%coq_nat ->
  cb (ccalculateT eta_exact n (spay s) E d u) q r k = rsum n (fun j => cs_Q (spay s) r j * Kd (cs_vs (spay s) 0%nat j j - E) d' q * cs_Q (spay s) k j)%Re) ->
  ct (code_calcT n eta_exact s E d u) = exact_blocks s E d'.
Proof.
  move=> H.
  have K : forall q (Hq : (q < 4)%coq_nat), (\matrix_(i, j) cb (ccalculateT eta_exact n (spay s) E d u) q i j : 'M[R_fieldType]_n) = QDQ s (fun i => Kd (code_ev n s i - E) d' q).
  { move=> q Hq. apply/matrixP=> i j. rewrite QDQ_entry mxE. rewrite (H q i j Hq); try exact/ltP. rewrite rsum_big. by apply: eq_bigr. }
  rewrite /code_calcT /as_CT /from_blocks /exact_blocks /=. rewrite !K //; by apply/ltP.
Qed.
Lemma code_blocks s E d u : well_formed n s -> constant_potential n s -> step_ok (smax s - smin s)%Re d -> ct (code_calcT n eta_exact s E d u) = exact_blocks s E d.
Proof.
  move=> W Cp Ok. have [_ [_ [Hh _]]] := W. rewrite -Hh in Ok. apply: blocks_of => q r k Hq Hr Hk. apply: ccalc_entries => //.
  - move=> i a b [K1 K2] Ha Hb. apply: Cp; [apply/andP; split; exact/leP|exact/ltP|exact/ltP].
  - exact: orth_entries.
Qed.
Lemma code_blocks_any s E d u : well_formed n s -> constant_potential n s -> exists d', ct (code_calcT n eta_exact s E d u) = exact_blocks s E d'.
Proof.
  move=> W Cp. case: (ccalc_any n (spay s) E d u).
  - move=> i a b [K1 K2] Ha Hb. apply: Cp; [apply/andP; split; exact/leP|exact/ltP|exact/ltP].
  - exact: orth_entries.
  - move=> d' H. exists d'. exact: blocks_of.
Qed.

Lemma code_symplectic s E d u : well_formed n s -> constant_potential n s -> symplectic (code_calcT n eta_exact s E d u).
Proof.
  move=> W Cp r1 r2 v w. have [d' ->] := code_blocks_any s E d u W Cp. rewrite /exact_blocks.
  set A := QDQ s _. set B := QDQ s _. set D := QDQ s _.
  have At : A^T = A by apply: QDQ_tr. have Bt : B^T = B by apply: QDQ_tr. have Dt : D^T = D by apply: QDQ_tr.
  have AD : A *m D = D *m A. { rewrite !QDQ_mul //. apply: QDQ_ext => i. ring. }
  have AB : B *m A = A *m B. { rewrite !QDQ_mul //. apply: QDQ_ext => i. ring. }
  have BD : B *m D = D *m B. { rewrite !QDQ_mul //. apply: QDQ_ext => i. ring. }
  have AA : A *m A = D *m B + 1%:M.
  { rewrite -(QDQ_1 s W). apply/eqP. rewrite addrC -subr_eq. apply/eqP. rewrite !QDQ_mul // QDQ_sub. apply: QDQ_ext => i. rewrite -[RHS](CS_1 (code_ev n s i - E)%Re d'). ring. }
  clearbody A B D.
  rewrite -(vsubmxK v) -(vsubmxK w). set v1 := usubmx v. set v2 := dsubmx v. set w1 := usubmx w. set w2 := dsubmx w.
  rewrite !mul_block_col !col_mxKu !col_mxKd !linearD /= !trmx_mul At Bt Dt ?mulmxDl ?mulmxDr !mulmxA.
  rewrite -!(mulmxA _ A D) -!(mulmxA _ D A) -!(mulmxA _ A A) -!(mulmxA _ B D) -!(mulmxA _ B A) -!(mulmxA _ D B) -!(mulmxA _ A B) AD AB BD AA.
  rewrite ?mulmxDr ?mulmxDl ?mulmx1.
  move: (v1^T *m (D *m A) *m w1) (v2^T *m (D *m B) *m w1) (v1^T *m (D *m B) *m w2) (v2^T *m (A *m B) *m w2) (v1^T *m w2) (v2^T *m w1) => a b c e f g.
  apply/matrixP=> i j. rewrite !mxE. exact: zalgR.
Qed.

(** without coupling, the basis of eigenvectors is the original one up to order and sign *)
Lemma QDQ_diag s (sg : 'I_n -> 'I_n) d : well_formed n s -> injective sg -> (forall i k, k != sg i -> cs_Q (spay s) i k = 0) -> QDQ s d = diag_mx (\row_i d (sg i)).
Proof.
  move=> W Inj H. have [_ [_ [_ O]]] := W.
  have S : forall i : 'I_n, (cs_Q (spay s) i (sg i) * cs_Q (spay s) i (sg i) = 1)%Re.
  { move=> i. have K := congr1 (fun m : 'M_n => m i i) O. rewrite /= !mxE eqxx (bigD1 (sg i)) //= big1 in K; last by move=> k Hk; rewrite !mxE H // mul0r.
    by rewrite addr0 !mxE in K. }
  apply/matrixP=> i j. rewrite QDQ_entry !mxE. case: (eqVneq i j) => [->|Ne].
  - rewrite (bigD1 (sg j)) //= big1 => [|k Hk]; last by rewrite H //; exact: zz1. rewrite mulr1n addr0. exact: zz3.
  - rewrite mulr0n big1 // => k _. case: (eqVneq k (sg i)) => [Ek|Hk]; last by rewrite (H i) //; exact: zz1.
    rewrite (H j k); first exact: zz2. apply/eqP => Ek'. move/eqP: Ne. apply. apply: Inj. by rewrite -Ek -Ek'.
Qed.

Lemma base_flow (s : sec) x (i : 'I_n) (w : 'I_n -> R) (z z' : 'I_n -> R -> R) : (sdir s = Dfwd \/ sdir s = Dbwd) -> (smin s < smax s)%Re -> (forall i, chan (w i) (smin s) (smax s) (z i) (z' i)) ->
  let d := base_dist s x in let C := Cw (w i) d in let S := Sw (w i) d in
  match sdir s with
  | Dfwd => (C * z i (smin s) + S * z' i (smin s) = z i (reachP s x) /\ w i * S * z i (smin s) + C * z' i (smin s) = z' i (reachP s x))%Re
  | _ => (C * z i (smax s) + S * - z' i (smax s) = z i (reachP s x) /\ w i * S * z i (smax s) + C * - z' i (smax s) = - z' i (reachP s x))%Re
  end.
Proof.
  move=> D Hs Ch. have Rg := reach_in s x (Rlt_le _ _ Hs). rewrite /base_dist. case: D => ->.
  - have [F1 F2] := flow_any (w i) (smin s) (smax s) (z i) (z' i) (smin s) (reachP s x) (Ch i) ltac:(lra) Rg. by rewrite F1 F2.
  - have [F1 F2] := flow_any (w i) (smin s) (smax s) (z i) (z' i) (smax s) (reachP s x) (Ch i) ltac:(lra) Rg.
    have E : (reachP s x - smax s = - (smax s - reachP s x))%Re by ring. rewrite E Cw_opp Sw_opp in F1 F2. rewrite F1 F2. split; ring.
Qed.
Lemma diag2 (a b c d e : 'I_n -> R) : (forall i, (a i * b i + c i * d i = e i)%Re) ->
  diag_mx (\row_i a i) *m diag_mx (\row_i b i) + diag_mx (\row_i c i) *m diag_mx (\row_i d i) = diag_mx (\row_i e i) :> 'M[R_fieldType]_n.
Proof. move=> H. rewrite !mulmx_diag -raddfD. congr diag_mx. apply/rowP=> i. rewrite !mxE. exact: H. Qed.

Lemma code_exact (s : sec) E u x (sg : 'I_n -> 'I_n) : well_formed n s -> constant_potential n s -> injective sg -> (forall (i k : 'I_n), k != sg i -> cs_Q (spay s) i k = 0) ->
  reachableP s x -> exact_channels (code_calcT n eta_exact) (fun i => code_ev n s (sg i)) E u s x.
Proof.
  move=> W Cp Inj Hq Rc. have [D [Hs _]] := W. split; first by apply/symplectic_unit/code_symplectic.
  move=> z z' Ch. rewrite (code_blocks s E _ u W Cp Rc) /exact_blocks !(QDQ_diag s sg) // /stateM.
  have K := fun i => base_flow s x i (fun i => code_ev n s (sg i) - E)%Re z z' D Hs Ch.
  case: D K => -> K; rewrite mul_block_col; congr col_mx; apply: diag2 => i; by case: (K i).
Qed.
End Const.
