(** A problem without coupling whose eigenvectors are not in the original order: the returned angle is a full turn too large. *)
From Coq Require Import Reals Lra.
From Coquelicot Require Import Coquelicot.
From Coq Require Import List.
From mathcomp Require Import ssreflect ssrfun ssrbool eqtype ssrnat seq fintype bigop ssralg poly matrix mxpoly.
From Verif Require Import Base M_Sectors S_Sectors M_Core S_Core S_Formulas P_Eta M_Formulas M_Coupled M_Matscs RCField M_Angle S_Zeros S_Channel P_Constant P_Arg S_Angle P_Angle P_Angle2 P_Angle3 P_Angle4 M_CoupledRun S_CoupledRun P_CConst P_Angle5.
Import GRing.Theory.
Delimit Scope R_scope with Re.

(** V = diag(1, 0) on [0, 1]; SelfAdjointEigenSolver returns the eigenvalues in increasing order: 0, 1 with eigenvectors e_2, e_1 *)
Definition rV (k r c : nat) : R := match k, r, c with O, O, O => 1 | _, _, _ => 0 end%Re.
Definition rQ (r c : nat) : R := match r, c with O, S O => 1 | S O, O => 1 | _, _ => 0 end%Re.
Definition rsec : sector R csector := mkSector 0%Re 1%Re Dfwd (make_csector 2 rV rQ 1 Dfwd).
Definition rz (i : 'I_2) (x : R) : R := if i == ord0 then (1 - x)%Re else sin x.
Definition rz' (i : 'I_2) (x : R) : R := if i == ord0 then (-1)%Re else cos x.
Definition rphi (i : 'I_2) (x : R) : R := if i == ord0 then (PI - atan (1 - x))%Re else x.
Definition sw (i : 'I_2) : 'I_2 := if i == ord0 then ord_max else ord0.

Lemma I2 (i : 'I_2) : i = ord0 \/ i = ord_max.
Proof. case: i => [[|[|i]] Hi]; [left|right|by []]; exact: val_inj. Qed.
Lemma rvs k a b : cs_vs (spay rsec) k a b = (rQ 0 a * rV k 0 0 * rQ 0 b)%Re.
Proof.
  rewrite /rsec /= /mscale /mmult /mtr /=. have E1 : forall r c, (r, c) <> (0%N, 0%N) -> rV k r c = 0%Re by move=> [|r] [|c] H; case: k => [|k] //=; case: H.
  rewrite !(E1 0%N 1%N) // !(E1 1%N 0%N) // !(E1 1%N 1%N) //. ring.
Qed.
Lemma rev0 : code_ev 2 rsec ord0 = 0%Re. Proof. rewrite /code_ev rvs /=. ring. Qed.
Lemma rev1 : code_ev 2 rsec ord_max = 1%Re. Proof. rewrite /code_ev rvs /=. ring. Qed.

Lemma r_wf : well_formed 2 rsec.
Proof.
  split; first by left. split; first by rewrite /=; lra. split; first by rewrite /=; lra.
  apply/matrixP=> i j. rewrite !mxE !big_ord_recl big_ord0 !mxE. have Z : forall a b c d : R, (a * b + (c * d + 0) = a * b + c * d)%Re by move=> *; ring.
  refine (eq_trans (Z _ _ _ _) _).
  case: (I2 i) => ->; case: (I2 j) => -> /=; [refine (_ : (_ = 1)%Re)|refine (_ : (_ = 0)%Re)|refine (_ : (_ = 0)%Re)|refine (_ : (_ = 1)%Re)]; ring.
Qed.
Lemma r_const : constant_potential 2 rsec.
Proof. move=> [|k] i j // _ _ _. rewrite rvs /=. refine (_ : (_ = 0)%Re). ring. Qed.
Lemma sw_inj : injective sw. Proof. by move=> i j; case: (I2 i) => ->; case: (I2 j) => ->. Qed.
Lemma sw_Q (i k : 'I_2) : k != sw i -> cs_Q (spay rsec) i k = 0%Re.
Proof. by case: (I2 i) => ->; case: (I2 k) => ->. Qed.
Lemma r_mean : mean_potential 2 rsec = diag_mx (\row_i (if i == ord0 then 1 else 0)%Re).
Proof.
  change (mean_potential 2 rsec) with (QDQ 2 rsec (code_ev 2 rsec)). rewrite (QDQ_diag 2 rsec sw _ r_wf sw_inj sw_Q). congr diag_mx. apply/rowP=> i. rewrite !mxE.
  case: (I2 i) => -> /=; [exact: rev1|exact: rev0].
Qed.
Lemma r_chan i : chan (mean_potential 2 rsec i i - 1)%Re (smin rsec) (smax rsec) (rz i) (rz' i).
Proof.
  rewrite r_mean !mxE eqxx mulr1n. case: (I2 i) => -> /=.
  - have -> : (1 - 1 = 0)%Re by ring. split=> x Hx.
    + split; rewrite /rz /rz' /=; [apply: continuous_minus; [exact: continuous_const|exact: continuous_id]|exact: continuous_const].
    + split; rewrite /rz /rz' /=; auto_derive => //; ring.
  - split=> x Hx.
    + split; rewrite /rz /rz' /=; [exact: continuous_sin|exact: continuous_cos].
    + split; rewrite /rz /rz' /=; auto_derive => //; ring.
Qed.
Lemma r_chan' i : chan (code_ev 2 rsec (sw i) - 1)%Re (smin rsec) (smax rsec) (rz i) (rz' i).
Proof. have K := r_chan i. rewrite r_mean !mxE eqxx mulr1n in K. case: (I2 i) K => -> /=; rewrite ?rev1 ?rev0 /sw //=. Qed.
Lemma r_nontrivial i : nontrivial (rz i) (rz' i) 0 1.
Proof.
  move=> x Hx. rewrite /rz /rz'. case: (i == ord0).
  - right. lra.
  - case: (Req_dec (sin x) 0) => H; [right|by left]. move=> H2. have := sin2_cos2 x. rewrite /Rsqr H H2. lra.
Qed.
Lemma r_lift i : lift (rz i) (rz' i) 0 1 (rphi i).
Proof.
  rewrite /rz /rz' /rphi. case: (i == ord0).
  - split=> x.
    + apply: continuous_minus; [exact: continuous_const|]. apply: (continuous_comp (fun x => 1 - x)%Re atan).
      * apply: continuous_minus; [exact: continuous_const|exact: continuous_id].
      * apply (proj1 (continuity_pt_filterlim atan (1 - x)%Re)). apply: derivable_continuous_pt. exact: derivable_pt_atan.
    + move=> _. set t := (1 - x)%Re. rewrite cos_minus sin_minus cos_PI sin_PI cos_atan sin_atan.
      field. apply: Rgt_not_eq. apply: sqrt_lt_R0. have := Rle_0_sqr t. lra.
  - split=> x; first exact: continuous_id. move=> _. rewrite /=. ring.
Qed.
Lemma r_reach x : (x = 0 \/ x = 1)%Re -> reachableP rsec x.
Proof.
  have E : (/ 10 ^ 12 < 1)%Re. { rewrite -Rinv_1. apply: Rinv_lt_contravar; [rewrite Rmult_1_l; apply: pow_lt; lra|]. apply: (Rlt_pow_R1 10 12); [lra|]. exact/ltP. }
  case=> ->; rewrite /reachableP /base_dist /reachP /=.
  - left. rewrite /Rmax /Rmin. repeat destruct (Rle_dec _ _); lra.
  - right. have -> : Rmax 0 (Rmin 1 1) = 1%Re by rewrite /Rmax /Rmin; repeat destruct (Rle_dec _ _); lra. split; [lra|left; lra].
Qed.

Lemma pi_34 : (3 < PI < 4)%Re.
Proof.
  split; first by have := PI2_3_2; rewrite /PI2; lra.
  have [_ H] := PI_ineq 1. move: H. rewrite /tg_alt /PI_tg /=. lra.
Qed.
Lemma atan1 : atan 1 = (PI / 4)%Re. Proof. exact: atan_1. Qed.
Lemma Aref_m1 : Aref (-1) 1 = 1%Re.
Proof.
  rewrite /Aref. destruct (Rlt_dec (-1) 0) as [H|H]; last lra. have -> : (- -1 = 1)%Re by ring. rewrite sqrt_1 Rinv_1 Rmult_1_l /rescale.
  have -> : ((1 - 1) * sin 1 * cos 1 = 0)%Re by ring. have -> : (1 + (1 - 1) * sin 1 * sin 1 = 1)%Re by ring.
  rewrite /atan2 (proj2 (Rltb_true 0 1)); last lra. have -> : (0 / 1 = 0)%Re by field. rewrite atan_0. ring.
Qed.
Lemma Aref_z1 : Aref 0 1 = (PI / 4)%Re.
Proof.
  rewrite /Aref. destruct (Rlt_dec 0 0) as [H|H]; first lra. rewrite -atan1. congr atan.
  rewrite /Sw /Cw. have -> : (0 * (1 * 1) = 0)%Re by ring. rewrite !eta_at_0 /=. field.
Qed.
Lemma sum2 (f : 'I_2 -> R) : (\sum_i f i)%R = (f ord0 + f ord_max)%Re.
Proof. rewrite !big_ord_recl big_ord0 /=. have -> : fintype.lift ord0 ord0 = ord_max :> 'I_2 by apply: val_inj. exact: (f_equal (Rplus _) (Rplus_0_r _)). Qed.

Section Run.
Variable eigs : 'M[C]_2 -> list C.
Hypothesis EO : eigenvalues_ok eigs.
Variable y : @CY R_fieldType 2 2.
Hypothesis Hy : cy y = stateM rz rz' 0.
Notation ad := (argdet eta2 eigs (code_ev 2)).
Lemma r_step u : let y1 := cpropDelta (code_calcT 2 eta_exact) rsec 1 u (1 - 0) y in cy y1 = stateM rz rz' 1.
Proof using Hy.
  have [_ X] := code_exact 2 rsec 1 u 1 sw r_wf r_const sw_inj sw_Q (r_reach 1 (or_intror erefl)). have K := X rz rz' r_chan'.
  rewrite /= in K. have Rx : reachP rsec 1 = 1%Re by rewrite /reachP /Rmax /Rmin /=; repeat destruct (Rle_dec _ _); lra.
  have Bd : base_dist rsec 1 = 1%Re by rewrite /base_dist Rx /=; lra.
  rewrite Rx Bd in K.
  rewrite /cpropDelta /= (proj2 (Rleb_true 0 (1 - 0))); last lra. rewrite /csh /= (proj2 (Rltb_false (1 - 0) (1 - 0))); last lra.
  have -> : (1 - 0 = 1)%Re by ring. by rewrite /= Hy.
Qed.
Lemma r_angle y1 : cy y1 = stateM rz rz' 1 -> ad rsec 1 (1 - 0) y y1 = (2 + PI / 2 + 2 * PI)%Re.
Proof using EO Hy.
  move=> H1. have D0 : diagonal_state rz rz' 0 y by rewrite /diagonal_state /Yof /Y'of Hy /stateM col_mxKu col_mxKd.
  have D1 : diagonal_state rz rz' 1 y1 by rewrite /diagonal_state /Yof /Y'of H1 /stateM col_mxKu col_mxKd.
  have Dc : dclamp rsec (1 - 0) = 1%Re. { rewrite /dclamp /csh /= (proj2 (Rltb_false (1 - 0) (1 - 0))); last lra. rewrite (proj2 (Rltb_false (1 - 0) (- (1 - 0)))); lra. }
  rewrite argdet_val Dc (theta_diag rz rz' rphi 0 1 r_nontrivial r_lift 0 y ltac:(lra) D0) (theta_diag rz rz' rphi 0 1 r_nontrivial r_lift 1 y1 ltac:(lra) D1).
  rewrite mulmx_diag !(angles_diag eigs EO) !lsum_big !big_enum /= !sum2 !mxE rev0 rev1.
  have -> : (0 - 1 = -1)%Re by ring. have -> : (1 - 1 = 0)%Re by ring. rewrite Aref_m1 Aref_z1.
  change (cis (2 * 1)%Re * cis (2 * rphi ord0 0)%Re)%R with (Cmult (cis (2 * 1)) (cis (2 * rphi ord0 0))).
  change (cis (2 * (PI / 4))%Re * cis (2 * rphi ord_max 0)%Re)%R with (Cmult (cis (2 * (PI / 4))) (cis (2 * rphi ord_max 0))).
  rewrite !cis_plus /rphi /=.
  have Hp := pi_34.
  have A0 : atan (1 - 1) = 0%Re by (have -> : (1 - 1 = 0)%Re by ring); exact: atan_0.
  have A1 : atan (1 - 0) = (PI / 4)%Re by (have -> : (1 - 0 = 1)%Re by ring); exact: atan_1.
  rewrite A0 A1.
  have C1 : cangle (cis (2 * (PI - 0))) = (2 * PI)%Re. { have -> : (2 * (PI - 0) = 2 * PI)%Re by ring. rewrite (cangle_double PI 0); [ring|]. split; lra. }
  have C2 : cangle (cis (2 * 1)) = 2%Re. { rewrite (cangle_double 1 0); [ring|]. split; lra. }
  have C3 : cangle (cis (2 * 1 + 2 * (PI - PI / 4))) = (2 - PI / 2)%Re.
  { have -> : (2 * 1 + 2 * (PI - PI / 4) = 2 * (1 + 3 * PI / 4))%Re by field. rewrite (cangle_double _ 1); [field|]. split; lra. }
  have C4 : cangle (cis (2 * (PI / 4) + 2 * 0)) = (PI / 2)%Re.
  { have -> : (2 * (PI / 4) + 2 * 0 = 2 * (PI / 4))%Re by ring. rewrite (cangle_double _ 0); [field|]. split; lra. }
  rewrite C1 C2 C3 C4. field.
Qed.
Lemma r_run u : exists y' th, code_propagate 2 eta_exact eta2 eigs (rsec :: nil)%list 0 1 1 y 0 1 u = Ret (y', th) /\ cy y' = stateM rz rz' 1 /\
  th = ((\sum_i (2 * (rphi i 1 - rphi i 0))%Re)%R + 2 * PI)%Re.
Proof using EO Hy.
  have S := r_step u. rewrite /= in S. set y1 := cpropDelta _ _ _ _ _ _ in S.
  exists y1, (2 + PI / 2 + 2 * PI)%Re. split; last (split; first exact: S).
  - rewrite /code_propagate (mpropagate_fold _ _ (rsec :: nil)%list 0 1) //; try (split; lra).
    + rewrite (proj2 (Rleb_true 0 1)); last lra. rewrite /= /stepA /cspropA.
      have -> : ~~ ((Rleb (smax rsec) 0 && Rleb (smax rsec) 1) || (Rleb 0 (smin rsec) && Rleb 1 (smin rsec))) = true.
      { rewrite /= (proj2 (Rleb_false 1 0)); last lra. by rewrite !andbF. }
      rewrite [dir_eqb _ _]/= [smin rsec]/= (proj2 (Rltb_false 0 0)); last lra. rewrite (proj2 (Rltb_true 0 1)); last lra.
      rewrite /cpropDeltaA -/y1 /=. congr (Ret (_, _)). rewrite -[RHS](r_angle y1 S). ring.
    + move=> s /= [<-|[]] /=. lra.
  - rewrite sum2 /rphi /=. have -> : (1 - 1 = 0)%Re by ring. have -> : (1 - 0 = 1)%Re by ring. rewrite atan_0 atan_1. field.
Qed.
End Run.
