(** C77: coupled problems: the angle returned by Matscs::propagate. *)
From Coq Require Import Reals Lra.
From Coquelicot Require Import Coquelicot.
From Coq Require Import List.
From mathcomp Require Import ssreflect ssrfun ssrbool eqtype ssrnat seq fintype bigop ssralg poly matrix mxpoly.
From Verif Require Import Base M_Sectors S_Sectors M_Core S_Core S_Formulas M_Formulas M_Coupled M_Matscs P_Core2 RCField M_Angle S_Zeros S_Channel P_Constant P_Arg S_Angle P_Angle P_Angle2 P_Angle3 P_Angle4 M_CoupledRun S_CoupledRun P_CConst P_Angle5 P_Angle6 P_FTA.
Import GRing.Theory.
Delimit Scope R_scope with Re.
Local Open Scope ring_scope.

(** ---- C77.  One step: whatever the step matrix, the angle is the change of the phase of Y and Y' (modulo 2 pi). *)
Theorem C77_step : forall n (P : Type) (eigs : 'M[C]_n -> list C) (ev : sector R P -> 'I_n -> R) (s : sector R P) E delta (y0 y1 : @CY R_fieldType n n),
  eigenvalues_ok eigs -> regular y0 -> regular y1 -> Cmult (cis (argdet eta2 eigs ev s E delta y0 y1)) (phase y0) = phase y1.
Proof. move=> n P eigs ev s E delta y0 y1 EO. exact: argdet_phase. Qed.

(** A whole propagation, for any step matrices that preserve Wronskians: the result is a conjoined basis again and the returned angle
    is the change of its phase. *)
Theorem C77_phase : forall n (P : Type) (eigs : 'M[C]_n -> list C) (ev : sector R P -> 'I_n -> R) (calcT : sector R P -> R -> R -> bool -> @CT R_fieldType n)
    (l : list (sector R P)) lo hi E u a b (y : @CY R_fieldType n n),
  eigenvalues_ok eigs -> partition lo hi l -> (forall s, List.In s l -> (smin s <= smax s)%Re) -> (lo <= a <= hi)%Re -> (lo <= b <= hi)%Re -> conjoined y ->
  (forall s d, List.In s l -> symplectic (calcT s E d u)) ->
  exists y' th, mpropagate calcT (argdet eta2 eigs ev) l lo hi E y a b u = Ret (y', th) /\ conjoined y' /\ Cmult (cis th) (phase y) = phase y'.
Proof. move=> n P eigs ev calcT l lo hi E u a b y EO PT OR Ha Hb Cj Sy. exact: (propagate_phase eigs EO ev calcT l lo hi PT OR). Qed.

(** ... and the step matrices the code computes do so whenever the potential matrix is constant on every sector, coupled or not. *)
Theorem C77_phase_constant : forall n (eigs : 'M[C]_n -> list C) (l : list (sector R csector)) lo hi E u a b (y : @CY R_fieldType n n),
  eigenvalues_ok eigs -> partition lo hi l -> (forall s, List.In s l -> well_formed n s /\ constant_potential n s) -> (lo <= a <= hi)%Re -> (lo <= b <= hi)%Re -> conjoined y ->
  exists y' th, code_propagate n eta_exact eta2 eigs l lo hi E y a b u = Ret (y', th) /\ conjoined y' /\ Cmult (cis th) (phase y) = phase y'.
Proof.
  move=> n eigs l lo hi E u a b y EO PT W Ha Hb Cj. apply: C77_phase => //.
  - move=> s /W [[_ [H _]] _]. exact: Rlt_le.
  - move=> s d /W [H1 H2]. exact: code_symplectic.
Qed.

(** Without coupling and with the eigenvectors in the original order, the returned angle is twice the sum over the channels of the
    true change of their Pruefer angles (it counts every turn), and the returned state is exact.  For n = 1 this is every problem. *)
Theorem C77_uncoupled : forall n (eigs : 'M[C]_n -> list C) (l : list (sector R csector)) lo hi E u a b (z z' phi : 'I_n -> R -> R) (y : @CY R_fieldType n n),
  eigenvalues_ok eigs -> partition lo hi l ->
  (forall s, List.In s l -> well_formed n s /\ constant_potential n s /\ (forall i k : 'I_n, k != i -> cs_Q (spay s) i k = 0) /\ reachableP s a /\ reachableP s b) ->
  (lo <= a <= hi)%Re -> (lo <= b <= hi)%Re ->
  (forall s i, List.In s l -> chan (mean_potential n s i i - E)%Re (smin s) (smax s) (z i) (z' i)) ->
  (forall i, nontrivial (z i) (z' i) lo hi) -> (forall i, lift (z i) (z' i) lo hi (phi i)) -> cy y = stateM z z' a ->
  exists y' th, code_propagate n eta_exact eta2 eigs l lo hi E y a b u = Ret (y', th) /\ cy y' = stateM z z' b /\ th = \sum_i (2 * (phi i b - phi i a))%Re.
Proof.
  move=> n eigs l lo hi E u a b z z' phi y EO PT W Ha Hb Ch N L Hy.
  have Mp : forall s, List.In s l -> forall i, mean_potential n s i i = code_ev n s i.
  { move=> s Hs i. have [Wf [_ [Q _]]] := W s Hs. have K := QDQ_diag n s id (code_ev n s) Wf (fun _ _ H => H) Q.
    change (QDQ n s (code_ev n s) i i = code_ev n s i). by rewrite K !mxE eqxx. }
  have G : forall s, List.In s l -> good (code_ev n) (code_calcT n eta_exact) lo hi E u a b z z' s.
  { move=> s Hs. have [Wf [Cp [Q [Ra Rb]]]] := W s Hs. have [D [Lt _]] := Wf.
  have OR : forall t, List.In t l -> (smin t <= smax t)%Re by move=> t /W [[_ [H _]] _]; exact: Rlt_le.
  have [_ O] := chain_orderP l lo hi (proj2 PT) OR. have [O1 O2] := O s Hs.
  split=> //. split=> //. split=> //. split=> //. split.
  - move=> i. rewrite -(Mp s Hs i). exact: Ch.
  - split; exact: (code_exact n s E u _ id Wf Cp (fun _ _ H => H) Q). }
  have [y' [th [H1 [H2 H3]]]] := uncoupled_angle eigs EO (code_ev n) (code_calcT n eta_exact) lo hi E u a b z z' phi N L l PT y Ha Hb G Hy.
  exists y', th. split; first exact: H1. split; first exact: H2. rewrite H3 -total_diff lsum_big big_enum. by [].
Qed.

(** The same without the condition on the order of the eigenvectors is false: Eigen orders the eigenvalues of the mean potential
    increasingly, and the code applies the reference turns in that order to the channels in the original order.  For V = diag(1, 0)
    and E = 1 on [0, 1] the returned state is exact but the returned angle is a full turn too large. *)
Theorem C77_refuted : forall (eigs : 'M[C]_2 -> list C), eigenvalues_ok eigs ->
  exists (s : sector R csector) (z z' phi : 'I_2 -> R -> R) (y y' : @CY R_fieldType 2 2) th,
  partition 0 1 [:: s] /\ well_formed 2 s /\ constant_potential 2 s /\ reachableP s 0%Re /\ reachableP s 1%Re /\
  mean_potential 2 s = diag_mx (\row_i (if i == ord0 then 1 else 0)) /\ (cs_vs (spay s) 0 0%N 0%N <= cs_vs (spay s) 0 1%N 1%N)%Re /\
  (forall i, chan (mean_potential 2 s i i - 1)%Re (smin s) (smax s) (z i) (z' i)) /\
  (forall i, nontrivial (z i) (z' i) 0 1) /\ (forall i, S_Zeros.lift (z i) (z' i) 0 1 (phi i)) /\ cy y = stateM z z' 0%Re /\
  code_propagate 2 eta_exact eta2 eigs [:: s] 0%Re 1%Re 1%Re y 0%Re 1%Re true = Ret (y', th) /\
  cy y' = stateM z z' 1%Re /\ th = (\sum_i (2 * (phi i 1 - phi i 0))%Re + 2 * PI)%Re.
Proof.
  move=> eigs EO. set y := mkCY (stateM rz rz' 0%Re) 0 : @CY R_fieldType 2 2.
  have [y' [th [H1 [H2 H3]]]] := r_run eigs EO y erefl true.
  exists rsec, rz, rz', rphi, y, y', th.
  split; first by [].
  split; first exact: r_wf.
  split; first exact: r_const.
  split; first by apply: r_reach; left.
  split; first by apply: r_reach; right.
  split; first exact: r_mean.
  split. { rewrite !rvs /=. lra. }
  split; first exact: r_chan.
  split; first exact: r_nontrivial.
  split; first exact: r_lift.
  split; first by []. split; first exact: H1. split; first exact: H2. exact: H3.
Qed.

(** The hypotheses can be met: eigenvalues() exists; two channels V = diag(0, 1) at E = 1 on [0, 2], a forward and a backward sector. *)
Example ex_eigs : forall n, exists eigs : 'M[C]_n -> list C, eigenvalues_ok eigs.
Proof. move=> n. exists some_eigs. exact: some_eigs_ok. Qed.
Definition eV (k r c : nat) : R := match k, r, c with O, S O, S O => 1 | _, _, _ => 0 end%Re.
Definition es1 : sector R csector := mkSector 0%Re 1%Re Dfwd (make_csector 2 eV M_Coupled.mid 1 Dfwd).
Definition es2 : sector R csector := mkSector 1%Re 2%Re Dbwd (make_csector 2 eV M_Coupled.mid 1 Dbwd).
Definition ez (i : 'I_2) (x : R) : R := if i == ord0 then sin x else (1 - x)%Re.
Definition ez' (i : 'I_2) (x : R) : R := if i == ord0 then cos x else (-1)%Re.
Definition ephi (i : 'I_2) (x : R) : R := if i == ord0 then x else (PI - atan (1 - x))%Re.
Lemma e_vs d k a b : (a < 2)%N -> (b < 2)%N -> cs_vs (make_csector 2 eV M_Coupled.mid 1 d) k a b = (if (k == 0%N) && (a == 1%N) && (b == 1%N) then 1 else 0)%Re.
Proof.
  case: k a b => [|k] [|[|a]] [|[|b]] // _ _; rewrite /= /mscale /mmult /mtr /= /M_Coupled.mid /=; case: d => /=; try (case: (Nat.odd k)); rewrite /=; ring.
Qed.
Lemma e_mid : (\matrix_(i, j) M_Coupled.mid i j : 'M[R_fieldType]_2) = 1%:M.
Proof. apply/matrixP=> i j. rewrite !mxE. by case: (I2 i) => ->; case: (I2 j) => ->. Qed.
Lemma e_wf s : List.In s [:: es1; es2] -> well_formed 2 s /\ constant_potential 2 s /\ (forall i k : 'I_2, k != i -> cs_Q (spay s) i k = 0) /\ reachableP s 0%Re /\ reachableP s 2%Re.
Proof.
  have Ee : (/ 10 ^ 12 < 1)%Re. { rewrite -Rinv_1. apply: Rinv_lt_contravar; [rewrite Rmult_1_l; apply: pow_lt; lra|]. apply: (Rlt_pow_R1 10 12); [lra|]. exact/ltP. }
  have Q : forall i k : 'I_2, k != i -> M_Coupled.mid i k = 0 by move=> i k; case: (I2 i) => ->; case: (I2 k) => ->.
  move=> [<-|[<-|[]]]; (split; [split; [by [left|right]|split; [rewrite /=; lra|split; [rewrite /=; lra|by rewrite /diagonalize /= e_mid trmx1 mulmx1]]]|split; [|split; [exact: Q|]]]).
  - move=> [|k] i j // _ Hi Hj. exact: (e_vs Dfwd k.+1 i j Hi Hj).
  - rewrite /reachableP /base_dist /reachP /=.
    have -> : Rmax 0 (Rmin 0 1) = 0%Re by rewrite /Rmax /Rmin; repeat destruct (Rle_dec _ _); lra.
    have -> : Rmax 0 (Rmin 2 1) = 1%Re by rewrite /Rmax /Rmin; repeat destruct (Rle_dec _ _); lra. split; [left; lra|right; lra].
  - move=> [|k] i j // _ Hi Hj. exact: (e_vs Dbwd k.+1 i j Hi Hj).
  - rewrite /reachableP /base_dist /reachP /=.
    have -> : Rmax 1 (Rmin 0 2) = 1%Re by rewrite /Rmax /Rmin; repeat destruct (Rle_dec _ _); lra.
    have -> : Rmax 1 (Rmin 2 2) = 2%Re by rewrite /Rmax /Rmin; repeat destruct (Rle_dec _ _); lra. split; [right; lra|left; lra].
Qed.
Lemma e_mean s : List.In s [:: es1; es2] -> forall i, mean_potential 2 s i i = (if i == ord0 then 0 else 1).
Proof.
  move=> Hs i. have E : forall d, cs_vs (make_csector 2 eV M_Coupled.mid 1 d) 0 i i = (if i == ord0 then 0 else 1) by move=> d; rewrite e_vs //; case: (I2 i) => ->.
  case: Hs => [<-|[<-|[]]]; rewrite /mean_potential /diagonalize [cs_Q _]/= e_mid trmx1 mulmx1 mul1mx !mxE eqxx mulr1n; exact: E.
Qed.
Lemma e_chan s i : List.In s [:: es1; es2] -> chan (mean_potential 2 s i i - 1)%Re (smin s) (smax s) (ez i) (ez' i).
Proof.
  move=> Hs. rewrite (e_mean s Hs i). rewrite /ez /ez'. case: (i == ord0).
  - split=> x Hx; [split; [exact: continuous_sin|exact: continuous_cos]|split; auto_derive => //; change (0 : R_zmodType) with 0%Re; ring].
  - split=> x Hx; [split; [apply: continuous_minus; [exact: continuous_const|exact: continuous_id]|exact: continuous_const]|split; auto_derive => //; change (1 : R_ringType) with 1%Re; ring].
Qed.
Lemma e_nontrivial i : nontrivial (ez i) (ez' i) 0 2.
Proof.
  move=> x Hx. rewrite /ez /ez'. case: (i == ord0).
  - case: (Req_dec (sin x) 0) => H; [right|by left]. move=> H2. have := sin2_cos2 x. rewrite /Rsqr H H2. lra.
  - right. lra.
Qed.
Lemma e_lift i : S_Zeros.lift (ez i) (ez' i) 0 2 (ephi i).
Proof.
  rewrite /ez /ez' /ephi. case: (i == ord0).
  - split=> x; first exact: continuous_id. move=> _. rewrite /=. ring.
  - split=> x.
    + apply: continuous_minus; [exact: continuous_const|]. apply: (continuous_comp (fun x => 1 - x)%Re atan).
      * apply: continuous_minus; [exact: continuous_const|exact: continuous_id].
      * apply (proj1 (continuity_pt_filterlim atan (1 - x)%Re)). apply: derivable_continuous_pt. exact: derivable_pt_atan.
    + move=> _. set t := (1 - x)%Re. rewrite cos_minus sin_minus cos_PI sin_PI cos_atan sin_atan.
      field. apply: Rgt_not_eq. apply: sqrt_lt_R0. have := Rle_0_sqr t. lra.
Qed.
Example ex_uncoupled : exists y', code_propagate 2 eta_exact eta2 some_eigs [:: es1; es2] 0%Re 2%Re 1%Re (mkCY (stateM ez ez' 0%Re) 0) 0%Re 2%Re true = Ret (y', (4 + PI)%Re).
Proof.
  have [y' [th [H1 [H2 H3]]]] := C77_uncoupled 2 some_eigs [:: es1; es2] 0%Re 2%Re 1%Re true 0%Re 2%Re ez ez' ephi (mkCY (stateM ez ez' 0%Re) 0)
    (some_eigs_ok 2) ltac:(by []) e_wf ltac:(lra) ltac:(lra) (fun s i H => e_chan s i H) e_nontrivial e_lift erefl.
  exists y'. rewrite H1 H3. congr (Ret (_, _)). rewrite sum2 /ephi /=. have -> : (1 - 2 = - 1)%Re by ring. have -> : (1 - 0 = 1)%Re by ring. rewrite atan_opp atan_1. field.
Qed.
Definition ey : @CY R_fieldType 2 2 := mkCY (col_mx 0 1%:M) 0.
Example ex_conjoined : conjoined ey.
Proof. rewrite /conjoined /Yof /Y'of /= col_mxKu col_mxKd. split; [by rewrite trmx0 mul0mx mulmx0|]. move=> c _. by rewrite mul1mx. Qed.
Example ex_phase : exists y' th, code_propagate 2 eta_exact eta2 some_eigs [:: es1; es2] 0%Re 2%Re 5%Re ey 2%Re 0%Re false = Ret (y', th) /\ conjoined y' /\ Cmult (cis th) (phase ey) = phase y'.
Proof.
  apply: (C77_phase_constant 2 some_eigs [:: es1; es2] 0%Re 2%Re 5%Re false 2%Re 0%Re ey (some_eigs_ok 2)); try lra; try exact: ex_conjoined; try by [].
  move=> s Hs. by have [H1 [H2 _]] := e_wf s Hs.
Qed.

Print Assumptions C77_step.
Print Assumptions C77_phase.
Print Assumptions C77_phase_constant.
Print Assumptions C77_uncoupled.
Print Assumptions C77_refuted.
