(** The matching of the periodic problem: the error is governed by the trace of the period map, the angle differences by the turns. *)
From Coq Require Import Reals ZArith Lra Lia Bool.
From Coquelicot Require Import Coquelicot.
From Coq Require Import List.
From Verif Require Import Base M_Sectors S_Sectors P_Lookup M_Core S_Core P_Core P_Core2 P_Prufer S_Formulas P_Terms2 S_Accuracy S_Zeros P_Lift P_Lift2 P_Cross P_Global2 P_Global3 P_Global5 P_Step P_Step2 P_Count P_Count2 P_Sturm P_Sturm2 P_Sturm3 T_Core T_Zeros S_Search T_Search T_Sturm M_Periodic S_Hill P_Hill P_Hill2.
Import ListNotations.
Open Scope R_scope.

Section Trace.
Variables (V : R -> R) (l : list sec) (lo hi M : R).
Hypothesis PT : partition lo hi l.
Hypothesis Ho : forall s, In s l -> smin s < smax s.
Hypothesis HM : forall s x, In s l -> smin s < x < smax s -> Rabs (V x) <= M.
Hypothesis HM0 : 0 <= M.
Hypothesis Hlh : lo < hi.
Notation turned := (turned V l lo hi).
Variables (E : R) (p p' q q' : R -> R).
Hypothesis Sp : solution V E lo hi l p p'.
Hypothesis Sq : solution V E lo hi l q q'.
Hypothesis p0 : p lo = 1.
Hypothesis p1 : p' lo = 1.
Hypothesis q0 : q lo = 1.
Hypothesis q1 : q' lo = -1.

Definition trace2 : R := p hi + q hi + p' hi - q' hi.  (* twice the trace *)
Lemma basis_det : p hi * q' hi - p' hi * q hi = -2.
Proof using PT Ho Hlh Sp Sq p0 p1 q0 q1. rewrite <- (wronskian V l lo hi PT Ho E p p' q q' Sp Sq lo hi) by lra. rewrite p0, p1, q0, q1. ring. Qed.
Lemma basis_span : forall z z', solution V E lo hi l z z' -> let A := (z lo + z' lo) / 2 in let B := (z lo - z' lo) / 2 in
  z lo = A + B /\ z' lo = A - B /\ z hi = A * p hi + B * q hi /\ z' hi = A * p' hi + B * q' hi.
Proof using PT Ho Hlh HM HM0 Sp Sq p0 p1 q0 q1.
  intros z z' S A B. assert (z lo = A + B /\ z' lo = A - B) as [Z0 Z1] by (unfold A, B; split; field). split; [exact Z0|]. split; [exact Z1|].
  pose proof (solution_comb V l lo hi E p p' q q' A B Sp Sq) as C.
  destruct (solution_unique V l lo hi M (proj2 PT) ltac:(intros s Hs; left; apply Ho, Hs) HM HM0 E z z' _ _ S C 1 lo ltac:(lra)) with (x := hi) as [U0 U1]; [rewrite p0, q0; lra|rewrite p1, q1; lra|lra|]. lra.
Qed.
Lemma trace_eigen : forall z z' lam, solution V E lo hi l z z' -> nontrivial z z' lo hi -> z hi = lam * z lo -> z' hi = lam * z' lo -> lam * trace2 = 2 * (lam * lam + 1).
Proof using PT Ho Hlh HM HM0 Sp Sq p0 p1 q0 q1.
  intros z z' lam S N H0 H1. destruct (basis_span z z' S) as (Z0 & Z1 & Z2 & Z3). set (A := (z lo + z' lo) / 2) in *. set (B := (z lo - z' lo) / 2) in *.
  assert (A <> 0 \/ B <> 0) as NAB. { destruct (Req_dec A 0) as [ZA|ZA]; [|left; exact ZA]. destruct (Req_dec B 0) as [ZB|ZB]; [|right; exact ZB]. exfalso. destruct (N lo ltac:(lra)); lra. }
  pose proof (kernel2 (p hi - lam) (q hi - lam) (p' hi - lam) (q' hi + lam) A B NAB) as K.
  assert ((p hi - lam) * (q' hi + lam) - (q hi - lam) * (p' hi - lam) = 0) as Z. { apply K; [rewrite Z2, Z0 in H0|rewrite Z3, Z1 in H1]; lra. }
  pose proof basis_det as D. unfold trace2. lra.
Qed.
Lemma eigen_exists : forall lam, lam * trace2 = 2 * (lam * lam + 1) ->
  exists z z', solution V E lo hi l z z' /\ nontrivial z z' lo hi /\ z hi = lam * z lo /\ z' hi = lam * z' lo.
Proof using PT Ho Hlh HM HM0 Sp Sq p0 p1 q0 q1.
  intros lam H. pose proof basis_det as D. destruct (kernel2_ex (p hi - lam) (q hi - lam) (p' hi - lam) (q' hi + lam)) as (A & B & NAB & K1 & K2); [unfold trace2 in H; lra|].
  exists (fun x => A * p x + B * q x), (fun x => A * p' x + B * q' x). pose proof (solution_comb V l lo hi E p p' q q' A B Sp Sq) as C.
  split; [exact C|]. split; [|rewrite p0, p1, q0, q1; lra].
  apply (nontrivial_at V l lo hi M PT Ho HM HM0 E _ _ lo C ltac:(lra)). rewrite p0, p1, q0, q1.
  destruct (Req_dec A 0) as [ZA|ZA]; [destruct (Req_dec B 0) as [ZB|ZB]; [destruct NAB; contradiction|left; lra]|]. destruct (Req_dec (A * 1 + B * 1) 0); [right|left]; lra.
Qed.
(** if some solution turns by a nonpositive and some by a positive amount (modulo 2 pi), the period map has a real eigendirection *)
Lemma indefinite : forall z z' w w', solution V E lo hi l z z' -> nontrivial z z' lo hi -> solution V E lo hi l w w' ->
  0 <= z lo * z' hi - z' lo * z hi -> w lo * w' hi - w' lo * w hi < 0 -> 16 <= trace2 * trace2.
Proof using PT Ho Hlh HM HM0 Sp Sq p0 p1 q0 q1.
  intros z z' w w' Sz N Sw Hz Hw. destruct (basis_span z z' Sz) as (Z0 & Z1 & Z2 & Z3). set (A := (z lo + z' lo) / 2) in *. set (B := (z lo - z' lo) / 2) in *.
  destruct (basis_span w w' Sw) as (W0 & W1 & W2 & W3). set (A' := (w lo + w' lo) / 2) in *. set (B' := (w lo - w' lo) / 2) in *.
  assert (A <> 0 \/ B <> 0) as NAB. { destruct (Req_dec A 0) as [ZA|ZA]; [|left; exact ZA]. destruct (Req_dec B 0) as [ZB|ZB]; [|right; exact ZB]. exfalso. destruct (N lo ltac:(lra)); lra. }
  set (al := p' hi - p hi). set (be := q' hi + p' hi - q hi + p hi). set (ga := q' hi + q hi).
  assert (forall a b, (a + b) * (a * p' hi + b * q' hi) - (a - b) * (a * p hi + b * q hi) = al * (a * a) + be * (a * b) + ga * (b * b)) as Id by (intros; unfold al, be, ga; ring).
  rewrite Z0, Z1, Z2, Z3, Id in Hz. rewrite W0, W1, W2, W3, Id in Hw. pose proof (quad_disc al be ga A B A' B' NAB Hz Hw) as D. pose proof basis_det as BD.
  assert (be * be - 4 * al * ga = trace2 * trace2 - 16) as Q; [|lra].
  transitivity (trace2 * trace2 + 8 * (p hi * q' hi - p' hi * q hi)); [unfold al, be, ga, trace2; ring|rewrite BD; ring].
Qed.
Lemma trace_root : 16 <= trace2 * trace2 -> exists lam, lam <> 0 /\ lam * trace2 = 2 * (lam * lam + 1).
Proof using.
  clear. intro H. set (d := sqrt (trace2 * trace2 - 16)). assert (d * d = trace2 * trace2 - 16) as Hd by (apply sqrt_def; lra).
  exists ((trace2 + d) / 4). assert ((trace2 + d) / 4 * trace2 = 2 * ((trace2 + d) / 4 * ((trace2 + d) / 4) + 1)) as Q by lra. split; [|exact Q].
  intro Z. rewrite Z in Q. lra.
Qed.
End Trace.

(** ---- the numbers computed by the matching *)
Section Numbers.
Variable calcT : sec -> R -> R -> bool -> Tm.
Variable vm : R.
Variables (l : list sec) (m : Z) (sm : sec) (lo hi : R) (V : R -> R) (sg : R).
Hypothesis PT : partition lo hi l.
Hypothesis Hm : vget l m = Ret sm.
Hypothesis Hsm : smax sm < hi.
Hypothesis Hsg : sg * sg = 1.
Notation c := (smax sm).
Notation turned := (turned V l lo hi).

Definition column (k u0 u1 : R) : Y := mkY (k * u0) (k * u1) 0 0.
Definition col_diff (u0 u1 : R) : R -> R := angle_difference calcT vm l m lo hi (column 1 u0 u1) (column sg u0 u1).

Lemma sg_nz : sg <> 0.
Proof using Hsg. intro Z. rewrite Z in Hsg. lra. Qed.
Lemma initial_left u0 u1 : initialColumn Mid (u0, u1) = column 1 u0 u1.
Proof using. unfold initialColumn, mapply, Mid, column. cbn. f_equal; ring. Qed.
Lemma initial_right u0 u1 : initialColumn (Kscal sg) (u0, u1) = column sg u0 u1.
Proof using. unfold initialColumn, mapply, Kscal, column. cbn. f_equal; ring. Qed.

(** one column: solution from the left, solution from the right, angle difference against turn *)
Lemma col_exact : forall E u0 u1, hill_exact calcT V lo hi l c E -> u0 <> 0 ->
  exists z z' w w' ZL tL ZR tR, solution V E lo hi l z z' /\ solution V E lo hi l w w' /\ z lo = u0 /\ z' lo = u1 /\ w hi = sg * u0 /\ w' hi = sg * u1 /\
    propagate calcT vm l lo hi E (column 1 u0 u1) lo c true = Ret (ZL, tL) /\ propagate calcT vm l lo hi E (column sg u0 u1) hi c true = Ret (ZR, tR) /\
    y0 ZL = z c /\ y1 ZL = z' c /\ y0 ZR = w c /\ y1 ZR = w' c /\ (tL - tR) / PI = col_diff u0 u1 E /\
    exists f, nontrivial z z' lo hi /\ ang 1 z z' lo hi f /\ 0 < f lo < PI /\
      (forall k, IZR k <= col_diff u0 u1 E <-> IZR k * PI <= f hi - f lo) /\ (forall k, IZR k < col_diff u0 u1 E <-> IZR k * PI < f hi - f lo).
Proof using PT Hm Hsm Hsg.
  intros E u0 u1 X Hu. pose proof PIpos as HP. pose proof sg_nz as Ns. pose proof (scaling_pos vm E) as HS.
  assert (nonzero (column 1 u0 u1)) as NL by (left; cbn; lra).
  assert (nonzero (column sg u0 u1)) as NR by (left; cbn; apply Rmult_integral_contrapositive_currified; assumption).
  specialize (X (column 1 u0 u1) (column sg u0 u1)).
  pose proof (difference_value calcT vm l m sm lo hi V _ _ E PT Hm Hsm NL NR X) as DV. fold (col_diff u0 u1) in DV.
  destruct (at_energy calcT vm l m sm lo hi V _ _ PT Hm Hsm NL NR E X) as (Ho & Hc & zL & zL' & AL & zR & zR' & AR & derr & SL & SR & _ & _ & TL & TR & ME).
  destruct (order_in l lo hi PT Ho) as [Hlh O]. pose proof X as (CL & CR & _).
  destruct (resolved_bounded V l) as (M & HM & B); [intros s Hs; apply (CL s Hs)|].
  destruct SL as [solL nzL L0 L1 angL rL], SR as [solR nzR R0 R1 angR rR]. cbn in L0, L1, R0, R1. rewrite Rmult_1_l in L0, L1.
  destruct (propagate_exact calcT vm l lo hi PT V E zL zL' solL nzL Ho true lo c (column 1 u0 u1) CL ltac:(lra) ltac:(lra) ltac:(cbn; lra) ltac:(cbn; lra)) as (ZL & tL & pL & PL & PL0 & PL1 & _ & _ & _ & _).
  destruct (propagate_exact calcT vm l lo hi PT V E zR zR' solR nzR Ho true hi c (column sg u0 u1) CR ltac:(lra) ltac:(lra) ltac:(cbn; lra) ltac:(cbn; lra)) as (ZR & tR & pR & PR & PR0 & PR1 & _ & _ & _ & _).
  assert (thL calcT vm l sm lo hi (column 1 u0 u1) E = tL) as ETL by (unfold thL; rewrite PL; reflexivity).
  assert (thR calcT vm l sm lo hi (column sg u0 u1) E = tR) as ETR by (unfold thR; rewrite PR; reflexivity).
  exists zL, zL', zR, zR', ZL, tL, ZR, tR. do 12 (split; [assumption|]). split.
  { rewrite <- ETL, <- ETR, <- DV. field. lra. }
  exists AL. split; [exact nzL|]. split; [exact angL|].
  (* angles at the ends *)
  pose proof (proj2 angL lo ltac:(lra)) as QL. pose proof (proj2 angR hi ltac:(lra)) as QR. cbv beta in QL, QR. rewrite Rmult_1_l in QL, QR. rewrite L0, L1 in QL. rewrite R0, R1 in QR.
  assert (u0 * cos (AR hi) = u1 * sin (AR hi)) as QR'. { apply (Rmult_eq_reg_l sg); [lra|exact Ns]. }
  unfold rgL in rL. unfold rgR in rR.
  assert (0 < AL lo) as PL'. { destruct (proj1 rL) as [|Z]; [assumption|]. rewrite <- Z, sin_0, cos_0 in QL. lra. }
  assert (AR hi < PI) as PR'. { destruct (proj2 rR) as [|Z]; [assumption|]. rewrite Z, sin_PI, cos_PI in QR'. lra. }
  assert (AR hi = AL lo) as EA. { assert (AR hi - AL lo = 0); [|lra]. apply mult_pi_small; [|lra]. apply (angles_pi u0 u1); [left; exact Hu|exact QR'|exact QL]. }
  split; [lra|].
  pose proof (flr_const V l lo hi M PT Ho B HM E zL zL' zR zR' AL AR solL solR nzL nzR angL angR c hi ltac:(lra) ltac:(lra)) as FC. rewrite EA in FC.
  pose proof (mult_spread V l lo hi M PT Ho B HM E zL zL' zR zR' AL AR solL solR nzL nzR angL angR) as MS.
  assert (forall k, IZR k * PI <= AL c - AR c <-> IZR k * PI <= AL hi - AL lo) as G1. { intro k. rewrite !flr_ge, FC. tauto. }
  assert (forall k, IZR k * PI = AL c - AR c <-> IZR k * PI = AL hi - AL lo) as G2.
  { intro k. split; intro H.
    - pose proof (MS c ltac:(lra) (ex_intro _ k (eq_sym H)) hi ltac:(lra)). lra.
    - assert (multiple_of_pi (AL hi - AR hi)) as MH by (exists k; rewrite EA; lra). pose proof (MS hi ltac:(lra) MH c ltac:(lra)). lra. }
  assert (forall k, IZR k * PI <= rescale (AL c) (scaling vm E) - rescale (AR c) (scaling vm E) <-> IZR k * PI <= AL c - AR c) as G3 by (intro k; apply level_transfer, HS).
  assert (forall k, IZR k * PI < rescale (AL c) (scaling vm E) - rescale (AR c) (scaling vm E) <-> IZR k * PI < AL c - AR c) as G4.
  { intro k. split; [|apply level_transfer_lt, HS]. intro H. pose proof (proj1 (G3 k) ltac:(lra)) as [L|L]; [exact L|]. exfalso.
    assert (AL c = AR c + IZR k * PI) as Q by lra. rewrite Q, rescale_shift in H. lra. }
  rewrite TL, TR in G3, G4. rewrite <- DV in G3, G4.
  assert (forall k, IZR k <= col_diff u0 u1 E <-> IZR k * PI <= col_diff u0 u1 E * PI) as G5. { intro k. split; intro H; [apply Rmult_le_compat_r; lra|apply (Rmult_le_reg_r PI); lra]. }
  assert (forall k, IZR k < col_diff u0 u1 E <-> IZR k * PI < col_diff u0 u1 E * PI) as G6. { intro k. split; intro H; [apply Rmult_lt_compat_r; lra|apply (Rmult_lt_reg_r PI); lra]. }
  split; intro k.
  - rewrite G5, G3, G1. tauto.
  - rewrite G6, G4. pose proof (G1 k) as [G1a G1b]. pose proof (G2 k) as [G2a G2b]. split; intro H.
    + destruct (G1a ltac:(lra)) as [L|L]; [exact L|]. specialize (G2b L). lra.
    + destruct (G1b ltac:(lra)) as [L|L]; [exact L|]. specialize (G2a L). lra.
Qed.

(** the whole matching at one energy *)
Definition tr2 (p p' q q' : R -> R) : R := trace2 hi p p' q q'.
Lemma matching_exact : forall E, hill_exact calcT V lo hi l c E ->
  exists p p' q q' f g, solution V E lo hi l p p' /\ solution V E lo hi l q q' /\ p lo = 1 /\ p' lo = 1 /\ q lo = 1 /\ q' lo = -1 /\
    nontrivial p p' lo hi /\ nontrivial q q' lo hi /\ ang 1 p p' lo hi f /\ ang 1 q q' lo hi g /\
    (forall k, IZR k <= col_diff 1 1 E <-> IZR k * PI <= f hi - f lo) /\ (forall k, IZR k < col_diff 1 1 E <-> IZR k * PI < f hi - f lo) /\
    (forall k, IZR k <= col_diff 1 (-1) E <-> IZR k * PI <= g hi - g lo) /\ (forall k, IZR k < col_diff 1 (-1) E <-> IZR k * PI < g hi - g lo) /\
    hill_err calcT vm l m lo hi (Kscal sg) E = sg * tr2 p p' q q' - 4 /\
    hill_tmin calcT vm l m lo hi (Kscal sg) E = Rmin (col_diff 1 1 E) (col_diff 1 (-1) E) /\
    hill_tmax calcT vm l m lo hi (Kscal sg) E = Rmax (col_diff 1 1 E) (col_diff 1 (-1) E).
Proof using PT Hm Hsm Hsg.
  intros E X.
  destruct (col_exact E 1 1 X ltac:(lra)) as (p & p' & w & w' & ZL & tL & ZR & tR & Sp & Sw & P0 & P1 & W0 & W1 & PL & PR & L0 & L1 & R0 & R1 & DD & f & Np & Af & _ & F1 & F2).
  destruct (col_exact E 1 (-1) X ltac:(lra)) as (q & q' & v & v' & ZL2 & tL2 & ZR2 & tR2 & Sq & Sv & Q0 & Q1 & V0 & V1 & PL2 & PR2 & L02 & L12 & R02 & R12 & DD2 & g & Nq & Ag & _ & G1 & G2).
  assert (forall s, In s l -> smin s < smax s) as Ho. { destruct (X (column 1 1 1) (column sg 1 1)) as (CL & _). intros s Hs. apply (CL s Hs). }
  destruct (order_in l lo hi PT Ho) as [Hlh O]. assert (In sm l) as Hin. { unfold vget in Hm. destruct (m <? 0)%Z; [discriminate|]. destruct (nth_error l (Z.to_nat m)) eqn:Q; [|discriminate]. injection Hm as <-. apply (nth_error_In _ _ Q). } destruct (O sm Hin) as [O1 O2]. pose proof (Ho sm Hin) as O3.
  assert (periodicMatching calcT vm l m lo hi (Kscal sg) E true = Ret ([ysub ZL ZR; ysub ZL2 ZR2], [(tL - tR) / PI; (tL2 - tR2) / PI])) as PM.
  { unfold periodicMatching. rewrite Hm. cbn [bind]. unfold periodicInitialValue. rewrite !initial_left, !initial_right.
    assert (forall (a b : Y) x (ra rb : Y * R), propagate calcT vm l lo hi E a x c true = Ret ra -> propagate calcT vm l lo hi E b x c true = Ret rb ->
      propagateN calcT vm l lo hi E [a; b] x c true = Ret ([fst ra; fst rb], [snd ra; snd rb])) as PN.
    { intros a b x ra rb Pa Pb. destruct (C22_columns calcT vm l lo hi E [a; b] x c true) as (rs & -> & F); [intros y [<-|[<-|[]]]; eauto|discriminate|].
      inversion F as [|? r1 ? rs1 K1 F1']; subst. inversion F1' as [|? r2 ? rs2 K2 F2']; subst. inversion F2'; subst.
      rewrite Pa in K1. rewrite Pb in K2. injection K1 as <-. injection K2 as <-. reflexivity. }
    rewrite (PN _ _ _ _ _ PL PL2). cbn [bind]. rewrite (PN _ _ _ _ _ PR PR2). reflexivity. }
  exists p, p', q, q', f, g. do 14 (split; [assumption|]). unfold hill_err, hill_tmin, hill_tmax. rewrite PM. cbn [calculateMatchingError]. rewrite DD, DD2. split; [|auto].
  unfold ysub. cbn [y0 y1]. rewrite L0, L1, R0, R1, L02, L12, R02, R12.
  pose proof (solution_comb V l lo hi E p p' w w' 1 (-1) Sp Sw) as S1. pose proof (solution_comb V l lo hi E q q' v v' 1 (-1) Sq Sv) as S2.
  pose proof (wronskian V l lo hi PT Ho E _ _ _ _ S1 S2 c hi ltac:(lra) ltac:(lra)) as W. cbv beta in W.
  pose proof (basis_det V l lo hi PT Ho ltac:(lra) E p p' q q' Sp Sq P0 P1 Q0 Q1) as BD. rewrite W0, W1, V0, V1 in W.
  transitivity ((1 * p hi + -1 * (sg * 1)) * (1 * q' hi + -1 * (sg * -1)) - (1 * p' hi + -1 * (sg * 1)) * (1 * q hi + -1 * (sg * 1))); [rewrite <- W; ring|].
  unfold tr2, trace2. transitivity ((p hi * q' hi - p' hi * q hi) + sg * (p hi + q hi + p' hi - q' hi) - 2 * (sg * sg)); [ring|]. rewrite BD, Hsg. ring.
Qed.
End Numbers.
