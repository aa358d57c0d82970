(** The matching of the periodic problem for any matrix K of determinant 1. *)
From Coq Require Import Reals ZArith Lra Lia Bool.
From Coquelicot Require Import Coquelicot.
From Coq Require Import List.
From Verif Require Import Base M_Sectors S_Sectors P_Lookup M_Core S_Core P_Core P_Core2 P_Prufer S_Formulas P_Terms2 S_Accuracy S_Zeros P_Lift P_Lift2 P_Cross P_Global2 P_Global3 P_Global5 P_Step P_Step2 P_Count P_Count2 P_Sturm P_Sturm2 P_Sturm3 T_Core T_Zeros S_Search T_Search T_Sturm M_Periodic S_Hill P_Hill P_Hill2 P_Hill3.
Import ListNotations.
Open Scope R_scope.

Section NumbersK.
Variable calcT : sec -> R -> R -> bool -> Tm.
Variable vm : R.
Variables (l : list sec) (m : Z) (sm : sec) (lo hi : R) (V : R -> R).
Hypothesis PT : partition lo hi l.
Hypothesis Hm : vget l m = Ret sm.
Hypothesis Hsm : smax sm < hi.
Notation c := (smax sm).
Notation turned := (turned V l lo hi).

Definition cdiff (u0 u1 k0 k1 : R) : R -> R := angle_difference calcT vm l m lo hi (mkY u0 u1 0 0) (mkY k0 k1 0 0).

Lemma colK_exact : forall E u0 u1 k0 k1, hill_exact calcT V lo hi l c E -> u0 <> 0 \/ u1 <> 0 -> k0 <> 0 \/ k1 <> 0 ->
  exists z z' w w' ZL tL ZR tR, solution V E lo hi l z z' /\ solution V E lo hi l w w' /\ z lo = u0 /\ z' lo = u1 /\ w hi = k0 /\ w' hi = k1 /\
    propagate calcT vm l lo hi E (mkY u0 u1 0 0) lo c true = Ret (ZL, tL) /\ propagate calcT vm l lo hi E (mkY k0 k1 0 0) hi c true = Ret (ZR, tR) /\
    y0 ZL = z c /\ y1 ZL = z' c /\ y0 ZR = w c /\ y1 ZR = w' c /\ (tL - tR) / PI = cdiff u0 u1 k0 k1 E /\
    exists f be, nontrivial z z' lo hi /\ ang 1 z z' lo hi f /\ 0 <= f lo < PI /\ 0 < be <= PI /\ k0 * cos be = k1 * sin be /\
      (forall k, IZR k <= cdiff u0 u1 k0 k1 E <-> IZR k * PI <= f hi - be) /\ (forall k, IZR k < cdiff u0 u1 k0 k1 E <-> IZR k * PI < f hi - be).
Proof using PT Hm Hsm.
  intros E u0 u1 k0 k1 X Hu Hk. pose proof PIpos as HP. pose proof (scaling_pos vm E) as HS.
  assert (nonzero (mkY u0 u1 0 0)) as NL by exact Hu.
  assert (nonzero (mkY k0 k1 0 0)) as NR by exact Hk.
  specialize (X (mkY u0 u1 0 0) (mkY k0 k1 0 0)).
  pose proof (difference_value calcT vm l m sm lo hi V _ _ E PT Hm Hsm NL NR X) as DV. fold (cdiff u0 u1 k0 k1) in DV.
  destruct (at_energy calcT vm l m sm lo hi V _ _ PT Hm Hsm NL NR E X) as (Ho & Hc & zL & zL' & AL & zR & zR' & AR & derr & SL & SR & _ & _ & TL & TR & ME).
  destruct (order_in l lo hi PT Ho) as [Hlh O]. pose proof X as (CL & CR & _).
  destruct (resolved_bounded V l) as (M & HM & B); [intros s Hs; apply (CL s Hs)|].
  destruct SL as [solL nzL L0 L1 angL rL], SR as [solR nzR R0 R1 angR rR]. cbn in L0, L1, R0, R1.
  destruct (propagate_exact calcT vm l lo hi PT V E zL zL' solL nzL Ho true lo c (mkY u0 u1 0 0) CL ltac:(lra) ltac:(lra) ltac:(cbn; lra) ltac:(cbn; lra)) as (ZL & tL & pL & PL & PL0 & PL1 & _ & _ & _ & _).
  destruct (propagate_exact calcT vm l lo hi PT V E zR zR' solR nzR Ho true hi c (mkY k0 k1 0 0) CR ltac:(lra) ltac:(lra) ltac:(cbn; lra) ltac:(cbn; lra)) as (ZR & tR & pR & PR & PR0 & PR1 & _ & _ & _ & _).
  assert (thL calcT vm l sm lo hi (mkY u0 u1 0 0) E = tL) as ETL by (unfold thL; rewrite PL; reflexivity).
  assert (thR calcT vm l sm lo hi (mkY k0 k1 0 0) E = tR) as ETR by (unfold thR; rewrite PR; reflexivity).
  exists zL, zL', zR, zR', ZL, tL, ZR, tR. do 12 (split; [assumption|]). split.
  { rewrite <- ETL, <- ETR, <- DV. field. lra. }
  exists AL, (AR hi). split; [exact nzL|]. split; [exact angL|].
  pose proof (proj2 angR hi ltac:(lra)) as QR. cbv beta in QR. rewrite Rmult_1_l in QR. rewrite R0, R1 in QR.
  unfold rgL in rL. unfold rgR in rR.
  split; [exact rL|]. split; [exact rR|]. split; [exact QR|].
  pose proof (flr_const V l lo hi M PT Ho B HM E zL zL' zR zR' AL AR solL solR nzL nzR angL angR c hi ltac:(lra) ltac:(lra)) as FC.
  pose proof (mult_spread V l lo hi M PT Ho B HM E zL zL' zR zR' AL AR solL solR nzL nzR angL angR) as MS.
  assert (forall k, IZR k * PI <= AL c - AR c <-> IZR k * PI <= AL hi - AR hi) as G1. { intro k. rewrite !flr_ge, FC. tauto. }
  assert (forall k, IZR k * PI = AL c - AR c <-> IZR k * PI = AL hi - AR hi) as G2.
  { intro k. split; intro H.
    - pose proof (MS c ltac:(lra) (ex_intro _ k (eq_sym H)) hi ltac:(lra)). lra.
    - assert (multiple_of_pi (AL hi - AR hi)) as MH by (exists k; lra). pose proof (MS hi ltac:(lra) MH c ltac:(lra)). lra. }
  assert (forall k, IZR k * PI <= rescale (AL c) (scaling vm E) - rescale (AR c) (scaling vm E) <-> IZR k * PI <= AL c - AR c) as G3 by (intro k; apply level_transfer, HS).
  assert (forall k, IZR k * PI < rescale (AL c) (scaling vm E) - rescale (AR c) (scaling vm E) <-> IZR k * PI < AL c - AR c) as G4.
  { intro k. split; [|apply level_transfer_lt, HS]. intro H. pose proof (proj1 (G3 k) ltac:(lra)) as [L|L]; [exact L|]. exfalso.
    assert (AL c = AR c + IZR k * PI) as Q by lra. rewrite Q, rescale_shift in H. lra. }
  rewrite TL, TR in G3, G4. rewrite <- DV in G3, G4.
  assert (forall k, IZR k <= cdiff u0 u1 k0 k1 E <-> IZR k * PI <= cdiff u0 u1 k0 k1 E * PI) as G5. { intro k. split; intro H; [apply Rmult_le_compat_r; lra|apply (Rmult_le_reg_r PI); lra]. }
  assert (forall k, IZR k < cdiff u0 u1 k0 k1 E <-> IZR k * PI < cdiff u0 u1 k0 k1 E * PI) as G6. { intro k. split; intro H; [apply Rmult_lt_compat_r; lra|apply (Rmult_lt_reg_r PI); lra]. }
  split; intro k.
  - rewrite G5, G3, G1. tauto.
  - rewrite G6, G4. pose proof (G1 k) as [G1a G1b]. pose proof (G2 k) as [G2a G2b]. split; intro H.
    + destruct (G1a ltac:(lra)) as [L|L]; [exact L|]. specialize (G2b L). lra.
    + destruct (G1b ltac:(lra)) as [L|L]; [exact L|]. specialize (G2a L). lra.
Qed.

(** the whole matching at one energy; the columns of K [1 1; 1 -1] are (a, b) and (d, e) *)
Variable K : M22.
Hypothesis HK : m00 K * m11 K - m01 K * m10 K = 1.
Notation ka := (m00 K + m01 K).
Notation kb := (m10 K + m11 K).
Notation kd := (m00 K - m01 K).
Notation ke := (m10 K - m11 K).
Lemma Kdet : ka * ke - kb * kd = -2. Proof using HK. lra. Qed.
Lemma K1nz : ka <> 0 \/ kb <> 0.
Proof using HK. pose proof Kdet. destruct (Req_dec ka 0) as [Z|]; [right|left; assumption]. intro Z2. rewrite Z, Z2 in *. lra. Qed.
Lemma K2nz : kd <> 0 \/ ke <> 0.
Proof using HK. pose proof Kdet. destruct (Req_dec kd 0) as [Z|]; [right|left; assumption]. intro Z2. rewrite Z, Z2 in *. lra. Qed.
Definition dK1 : R -> R := cdiff 1 1 ka kb.
Definition dK2 : R -> R := cdiff 1 (-1) kd ke.
Lemma matchingK_exact : forall E, hill_exact calcT V lo hi l c E ->
  exists p p' q q' f g b1 b2, solution V E lo hi l p p' /\ solution V E lo hi l q q' /\ p lo = 1 /\ p' lo = 1 /\ q lo = 1 /\ q' lo = -1 /\
    nontrivial p p' lo hi /\ nontrivial q q' lo hi /\ ang 1 p p' lo hi f /\ ang 1 q q' lo hi g /\ 0 <= f lo < PI /\ 0 <= g lo < PI /\
    0 < b1 <= PI /\ 0 < b2 <= PI /\ ka * cos b1 = kb * sin b1 /\ kd * cos b2 = ke * sin b2 /\
    (forall k, IZR k <= dK1 E <-> IZR k * PI <= f hi - b1) /\ (forall k, IZR k < dK1 E <-> IZR k * PI < f hi - b1) /\
    (forall k, IZR k <= dK2 E <-> IZR k * PI <= g hi - b2) /\ (forall k, IZR k < dK2 E <-> IZR k * PI < g hi - b2) /\
    hill_err calcT vm l m lo hi K E = (p hi - ka) * (q' hi - ke) - (p' hi - kb) * (q hi - kd) /\
    hill_tmin calcT vm l m lo hi K E = Rmin (dK1 E) (dK2 E) /\
    hill_tmax calcT vm l m lo hi K E = Rmax (dK1 E) (dK2 E).
Proof using PT Hm Hsm HK.
  intros E X.
  destruct (colK_exact E 1 1 ka kb X ltac:(lra) K1nz) as (p & p' & w & w' & ZL & tL & ZR & tR & Sp & Sw & P0 & P1 & W0 & W1 & PL & PR & L0 & L1 & R0 & R1 & DD & f & b1 & Np & Af & If & Ib & Eb & F1 & F2).
  destruct (colK_exact E 1 (-1) kd ke X ltac:(lra) K2nz) as (q & q' & v & v' & ZL2 & tL2 & ZR2 & tR2 & Sq & Sv & Q0 & Q1 & V0 & V1 & PL2 & PR2 & L02 & L12 & R02 & R12 & DD2 & g & b2 & Nq & Ag & Ig & Ib2 & Eb2 & G1 & G2).
  assert (forall s, In s l -> smin s < smax s) as Ho. { destruct (X (mkY 1 1 0 0) (mkY 1 1 0 0)) as (CL & _). intros s Hs. apply (CL s Hs). }
  destruct (order_in l lo hi PT Ho) as [Hlh O]. assert (In sm l) as Hin. { unfold vget in Hm. destruct (m <? 0)%Z; [discriminate|]. destruct (nth_error l (Z.to_nat m)) eqn:Q; [|discriminate]. injection Hm as <-. apply (nth_error_In _ _ Q). } destruct (O sm Hin) as [O1 O2]. pose proof (Ho sm Hin) as O3.
  assert (periodicMatching calcT vm l m lo hi K E true = Ret ([ysub ZL ZR; ysub ZL2 ZR2], [(tL - tR) / PI; (tL2 - tR2) / PI])) as PM.
  { unfold periodicMatching. rewrite Hm. cbn [bind]. unfold periodicInitialValue.
    assert (forall u0 u1, initialColumn Mid (u0, u1) = mkY u0 u1 0 0) as IL by (intros; unfold initialColumn, mapply, Mid; cbn; f_equal; ring).
    assert (initialColumn K (1, 1) = mkY ka kb 0 0) as IR1 by (unfold initialColumn, mapply; cbn; f_equal; ring).
    assert (initialColumn K (1, -1) = mkY kd ke 0 0) as IR2 by (unfold initialColumn, mapply; cbn; f_equal; ring).
    rewrite !IL, IR1, IR2.
    assert (forall (a b : Y) x (ra rb : Y * R), propagate calcT vm l lo hi E a x c true = Ret ra -> propagate calcT vm l lo hi E b x c true = Ret rb ->
      propagateN calcT vm l lo hi E [a; b] x c true = Ret ([fst ra; fst rb], [snd ra; snd rb])) as PN.
    { intros a b x ra rb Pa Pb. destruct (C22_columns calcT vm l lo hi E [a; b] x c true) as (rs & -> & F); [intros y [<-|[<-|[]]]; eauto|discriminate|].
      inversion F as [|? r1 ? rs1 K1 F1']; subst. inversion F1' as [|? r2 ? rs2 K2 F2']; subst. inversion F2'; subst.
      rewrite Pa in K1. rewrite Pb in K2. injection K1 as <-. injection K2 as <-. reflexivity. }
    rewrite (PN _ _ _ _ _ PL PL2). cbn [bind]. rewrite (PN _ _ _ _ _ PR PR2). reflexivity. }
  exists p, p', q, q', f, g, b1, b2. do 20 (split; [assumption|]). unfold hill_err, hill_tmin, hill_tmax. rewrite PM. cbn [calculateMatchingError]. rewrite DD, DD2. fold dK1 dK2. split; [|auto].
  unfold ysub. cbn [y0 y1]. rewrite L0, L1, R0, R1, L02, L12, R02, R12.
  pose proof (solution_comb V l lo hi E p p' w w' 1 (-1) Sp Sw) as S1. pose proof (solution_comb V l lo hi E q q' v v' 1 (-1) Sq Sv) as S2.
  pose proof (wronskian V l lo hi PT Ho E _ _ _ _ S1 S2 c hi ltac:(lra) ltac:(lra)) as W. cbv beta in W. rewrite W0, W1, V0, V1 in W.
  transitivity ((1 * p hi + -1 * ka) * (1 * q' hi + -1 * ke) - (1 * p' hi + -1 * kb) * (1 * q hi + -1 * kd)); [rewrite <- W; ring|ring].
Qed.
End NumbersK.
