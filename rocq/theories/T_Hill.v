(** C67: what the periodic matching computes: the determinant vanishes exactly at the periodic (antiperiodic) eigenvalues, and at
    an eigenvalue whose eigenfunction has n zeros per period both angle differences lie strictly between n - 1 and n + 1.
    C68: the eigenvalues are ordered by their index, at most two share one, and only one has index 0.
    C69: the searches look into a window containing every eigenvalue; the lowest eigenvalue is found. *)
From Coq Require Import String Reals Ranalysis5 ZArith Lra Lia Bool.
From Coquelicot Require Import Coquelicot.
From Coq Require Import List.
From Verif Require Import Base M_Sectors S_Sectors P_Lookup M_Core S_Core P_Core P_Core2 P_Prufer S_Eta P_Eta S_Formulas M_Formulas P_Terms2 S_Accuracy S_Zeros P_Lift P_Lift2 P_Cross P_Global2 P_Global3 P_Global5 P_Step P_Step2 P_Count P_Count2 P_Constant P_Sturm P_Sturm2 P_Sturm3 T_Core T_Zeros S_Search T_Search T_Sturm M_Periodic T_Periodic S_Hill P_Hill P_Hill2 P_Hill3.
Import ListNotations.
Open Scope R_scope.

Section Hill.
Variable calcT : sec -> R -> R -> bool -> Tm.
Variable vm : R.
Variables (l : list sec) (m : Z) (sm : sec) (lo hi : R) (V : R -> R) (sg : R).
Hypothesis PT : partition lo hi l.
Hypothesis Hm : vget l m = Ret sm.
Hypothesis Hsm : smax sm < hi.
Hypothesis Hsg : sg * sg = 1.
Notation exact := (hill_exact calcT V lo hi l (smax sm)).
Notation err := (hill_err calcT vm l m lo hi (Kscal sg)).
Notation derr := (hill_derr calcT vm l m lo hi (Kscal sg)).
Notation tmin := (hill_tmin calcT vm l m lo hi (Kscal sg)).
Notation tmax := (hill_tmax calcT vm l m lo hi (Kscal sg)).
Notation hill := (hill_eigen V lo hi l sg).
Notation turned := (turned V l lo hi).

Lemma geometry : forall E, exact E -> (forall s, In s l -> smin s < smax s) /\ lo < hi /\ exists M, 0 <= M /\ forall s x, In s l -> smin s < x < smax s -> Rabs (V x) <= M.
Proof using PT Hm Hsm.
  intros E X. destruct (X (mkY 1 0 0 0) (mkY 1 0 0 0)) as (CL & _). assert (forall s, In s l -> smin s < smax s) as Ho by (intros s Hs; apply (CL s Hs)).
  split; [exact Ho|]. split.
  - assert (In sm l) as Hin. { unfold vget in Hm. destruct (m <? 0)%Z; [discriminate|]. destruct (nth_error l (Z.to_nat m)) eqn:Q; [|discriminate]. injection Hm as <-. apply (nth_error_In _ _ Q). }
    destruct (order_in l lo hi PT Ho) as [_ O]. destruct (O sm Hin). pose proof (Ho sm Hin). lra.
  - apply resolved_bounded. intros s Hs. apply (CL s Hs).
Qed.
Lemma solvable : forall E a, exact E -> exists b, turned E a b.
Proof using PT Hm Hsm.
  intros E a X. destruct (geometry E X) as (Ho & Hlh & M & HM & B). destruct (X (mkY (sin a) (cos a) 0 0) (mkY 1 0 0 0)) as (_ & _ & (z & z' & S & Z0 & Z1) & _). cbn in Z0, Z1.
  assert (nontrivial z z' lo hi) as N.
  { apply (nontrivial_at V l lo hi M PT Ho B HM E z z' lo S ltac:(lra)). rewrite Z0, Z1. pose proof (sin2_cos2 a) as Q. unfold Rsqr in Q. destruct (Req_dec (sin a) 0) as [Z|Z]; [right; intro Z2; rewrite Z, Z2 in Q; lra|left; exact Z]. }
  destruct (ang_exists 1 z z' lo hi a ltac:(lra) ltac:(lra) (proj1 S) N) as (f & A & F); [rewrite Z0, Z1; ring|]. exists (f hi), z, z', f. auto.
Qed.

(** ---- C67 *)
Theorem C67_zero : forall E, exact E -> (err E = 0 <-> exists n, hill n E).
Proof using PT Hm Hsm Hsg.
  intros E X. destruct (geometry E X) as (Ho & Hlh & M & HM & B).
  destruct (matching_exact calcT vm l m sm lo hi V sg PT Hm Hsm Hsg E X) as (p & p' & q & q' & f & g & Sp & Sq & P0 & P1 & Q0 & Q1 & _ & _ & _ & _ & _ & _ & _ & _ & EE & _). rewrite EE. unfold tr2. split.
  - intro Z. destruct (eigen_exists V l lo hi M PT Ho B HM Hlh E p p' q q' Sp Sq P0 P1 Q0 Q1 sg) as (z & z' & S & N & H0 & H1); [lra|].
    destruct (eigen_turn V l lo hi PT Ho Hlh E z z' sg S N (sg_nz sg Hsg) H0 H1) as (a & k & zs & _ & _ & LZ & Ek). exists k, z, z', zs. auto 10.
  - intros (n & z & z' & zs & S & N & H0 & H1 & _). pose proof (trace_eigen V l lo hi M PT Ho B HM Hlh E p p' q q' Sp Sq P0 P1 Q0 Q1 z z' sg S N H0 H1) as T. lra.
Qed.
Theorem C67_parity : forall E n, exact E -> hill n E -> (0 <= n)%Z /\ (Z.even n = true <-> sg = 1).
Proof using PT Hm Hsm Hsg.
  intros E n X H. destruct (geometry E X) as (Ho & Hlh & _). destruct (hill_turned V l lo hi PT Ho Hlh sg n E Hsg H) as (P & N & _). split; [exact N|].
  unfold psign in P. destruct (Z.even n); split; intro Q; try reflexivity; try discriminate; lra.
Qed.
Theorem C67_window : forall E n, exact E -> hill n E -> IZR n - 1 < tmin E /\ tmax E < IZR n + 1.
Proof using PT Hm Hsm Hsg.
  intros E n X H. destruct (geometry E X) as (Ho & Hlh & M & HM & B).
  destruct (matching_exact calcT vm l m sm lo hi V sg PT Hm Hsm Hsg E X) as (p & p' & q & q' & f & g & Sp & Sq & P0 & P1 & Q0 & Q1 & Np & Nq & Af & Ag & F1 & F2 & G1 & G2 & _ & -> & ->).
  pose proof (hill_window V l lo hi M PT Ho B HM Hlh sg n E Hsg H (f lo) (f hi) ltac:(exists p, p', f; auto)) as Wf.
  pose proof (hill_window V l lo hi M PT Ho B HM Hlh sg n E Hsg H (g lo) (g hi) ltac:(exists q, q', g; auto)) as Wg.
  assert (forall D t, (forall k, IZR k <= D <-> IZR k * PI <= t) -> (forall k, IZR k < D <-> IZR k * PI < t) -> (IZR n - 1) * PI < t < (IZR n + 1) * PI -> IZR n - 1 < D < IZR n + 1) as K.
  { intros D t H1 H2 W. rewrite <- minus_IZR, <- plus_IZR in *. split; [apply H2; lra|]. destruct (Rlt_le_dec D (IZR (n + 1))) as [|L]; [assumption|]. apply H1 in L. lra. }
  pose proof (K _ _ F1 F2 Wf). pose proof (K _ _ G1 G2 Wg). split; [apply Rmin_glb_lt|apply Rmax_lub_lt]; lra.
Qed.
(** where an angle difference is the whole number k, the determinant is nonnegative if k has the parity of the problem, and at
    most -8 if not *)
Theorem C67_sign : forall E k, exact E -> tmin E = IZR k \/ tmax E = IZR k -> ((Z.even k = true <-> sg = 1) -> 0 <= err E) /\ (~ (Z.even k = true <-> sg = 1) -> err E <= -8).
Proof using PT Hm Hsm Hsg.
  intros E k X H. destruct (geometry E X) as (Ho & Hlh & M & HM & B).
  destruct (matching_exact calcT vm l m sm lo hi V sg PT Hm Hsm Hsg E X) as (p & p' & q & q' & f & g & Sp & Sq & P0 & P1 & Q0 & Q1 & Np & Nq & Af & Ag & F1 & F2 & G1 & G2 & -> & Em & Ex). rewrite Em, Ex in H.
  assert (exists a, turned E a (a + IZR k * PI)) as (a & T).
  { assert (forall D t, (forall j, IZR j <= D <-> IZR j * PI <= t) -> (forall j, IZR j < D <-> IZR j * PI < t) -> D = IZR k -> t = IZR k * PI) as K.
    { intros D t H1 H2 ->. pose proof (proj1 (H1 k) ltac:(lra)) as [L|L]; [|lra]. apply H2 in L. lra. }
    assert (col_diff calcT vm l m lo hi sg 1 1 E = IZR k \/ col_diff calcT vm l m lo hi sg 1 (-1) E = IZR k) as [C|C].
    { unfold Rmin, Rmax in H. destruct (Rle_dec _ _) in H; tauto. }
    - exists (f lo). pose proof (K _ _ F1 F2 C) as Q. exists p, p', f. repeat (split; [assumption|]). split; [reflexivity|lra].
    - exists (g lo). pose proof (K _ _ G1 G2 C) as Q. exists q, q', g. repeat (split; [assumption|]). split; [reflexivity|lra]. }
  destruct (eigen_turn_rev V l lo hi Hlh E a k T) as (z & z' & lam & S & N & PL & H0 & H1).
  pose proof (trace_eigen V l lo hi M PT Ho B HM Hlh E p p' q q' Sp Sq P0 P1 Q0 Q1 z z' lam S N H0 H1) as TE. unfold tr2. set (t := trace2 hi p p' q q') in *.
  assert (lam <> 0) as NL by (intro Z; rewrite Z in PL; lra).
  assert (0 < lam * lam) as PL2 by nra.
  assert (psign k = 1 \/ psign k = -1) as Pk by (unfold psign; destruct (Z.even k); auto).
  assert (sg = 1 \/ sg = -1) as Ps. { assert ((sg - 1) * (sg + 1) = 0) as Q by (ring_simplify; rewrite <- Rsqr_pow2; unfold Rsqr; lra). apply Rmult_integral in Q as [Q|Q]; [left|right]; lra. }
  assert (4 <= psign k * t) as Q.
  { apply (Rmult_le_reg_l (psign k * lam)); [exact PL|]. replace (psign k * lam * (psign k * t)) with (psign k * psign k * (lam * t)) by ring. rewrite psign_sq, TE. destruct Pk as [Pk | Pk]; rewrite Pk; [pose proof (Rle_0_sqr (lam - 1)) as Z|pose proof (Rle_0_sqr (lam + 1)) as Z]; unfold Rsqr in Z; lra. }
  split; intro C.
  - assert (psign k = sg) as <-; [|lra]. unfold psign in *. destruct (Z.even k) eqn:Ev; [symmetry; apply C; reflexivity|]. destruct Ps as [-> | ->]; [|reflexivity]. destruct C as [_ C]. specialize (C eq_refl). discriminate.
  - assert (psign k = - sg) as Q2; [|rewrite Q2 in Q; lra]. unfold psign in *. destruct (Z.even k) eqn:Ev; destruct Ps as [-> | ->]; try lra; exfalso; apply C; split; intro HH; auto; try (exfalso; lra); try discriminate.
Qed.

(** ---- C68 *)
Theorem C68_order : forall E E' n n', exact E -> exact E' -> E < E' -> hill n E -> hill n' E' -> (n <= n')%Z.
Proof using PT Hm Hsm Hsg.
  intros E E' n n' X X' HE H H'. destruct (geometry E X) as (Ho & Hlh & M & HM & B). pose proof PIpos as HP.
  destruct (hill_turned V l lo hi PT Ho Hlh sg n E Hsg H) as (P & _ & a & T). destruct (hill_turned V l lo hi PT Ho Hlh sg n' E' Hsg H') as (P' & _ & _).
  destruct (solvable E' a X') as [b T']. pose proof (turned_energy V l lo hi PT Ho Hlh E E' _ _ _ HE T T') as L.
  pose proof (hill_window V l lo hi M PT Ho B HM Hlh sg n' E' Hsg H' a b T') as W.
  assert (IZR n * PI < (IZR n' + 1) * PI) as L2 by lra. apply Rmult_lt_reg_r in L2; [|lra]. rewrite <- plus_IZR in L2. apply lt_IZR in L2. lia.
Qed.
Theorem C68_index : forall E n n', exact E -> hill n E -> hill n' E -> n = n'.
Proof using PT Hm Hsm Hsg.
  intros E n n' X H H'. destruct (geometry E X) as (Ho & Hlh & M & HM & B). pose proof PIpos as HP.
  destruct (hill_turned V l lo hi PT Ho Hlh sg n E Hsg H) as (P & _ & a & T). destruct (hill_turned V l lo hi PT Ho Hlh sg n' E Hsg H') as (P' & _ & _).
  pose proof (hill_window V l lo hi M PT Ho B HM Hlh sg n' E Hsg H' _ _ T) as W.
  assert (IZR (n' - 1) * PI < IZR n * PI) as L1 by (rewrite minus_IZR; lra). assert (IZR n * PI < IZR (n' + 1) * PI) as L2 by (rewrite plus_IZR; lra).
  apply Rmult_lt_reg_r in L1; [|lra]. apply Rmult_lt_reg_r in L2; [|lra]. apply lt_IZR in L1, L2. lia.
Qed.
(** no three eigenvalues share their index, and no two have index 0 *)
Theorem C68_pairs : forall E1 E2 E3 n, exact E1 -> exact E2 -> exact E3 -> E1 < E2 -> E2 < E3 -> hill n E1 -> hill n E2 -> hill n E3 -> False.
Proof using PT Hm Hsm Hsg.
  intros E1 E2 E3 n X1 X2 X3 L12 L23 H1 H2 H3. destruct (geometry E1 X1) as (Ho & Hlh & M & HM & B).
  assert (forall E E', exact E -> exact E' -> E < E' -> hill n E -> hill n E' -> (forall a b, turned E' a b -> b - a <= IZR n * PI) -> False) as U.
  { intros E E' X X' L H H' C. destruct (hill_turned V l lo hi PT Ho Hlh sg n E Hsg H) as (_ & _ & a & T). destruct (solvable E' a X') as [b T'].
    pose proof (turned_energy V l lo hi PT Ho Hlh E E' _ _ _ L T T'). specialize (C a b T'). lra. }
  assert (forall E E', exact E -> exact E' -> E < E' -> hill n E -> hill n E' -> (forall a b, turned E a b -> IZR n * PI <= b - a) -> False) as D.
  { intros E E' X X' L H H' C. destruct (hill_turned V l lo hi PT Ho Hlh sg n E' Hsg H') as (_ & _ & a & T'). destruct (solvable E a X) as [b T].
    pose proof (turned_energy V l lo hi PT Ho Hlh E E' _ _ _ L T T'). specialize (C a b T). lra. }
  destruct (hill_onesided V l lo hi M PT Ho B HM Hlh sg n E2 Hsg H2) as [C|C]; [apply (U E1 E2)|apply (D E2 E3)]; auto.
Qed.
Lemma ground_side : forall E, exact E -> hill 0 E -> forall a b, turned E a b -> 0 <= b - a.
Proof using PT Hm Hsm Hsg.
  intros E X H a b T. destruct (geometry E X) as (Ho & Hlh & M & HM & B). destruct (hill_onesided V l lo hi M PT Ho B HM Hlh sg 0 E Hsg H) as [C|C]; [|specialize (C a b T); lra].
  exfalso. destruct (solvable E 0 X) as [b0 T0]. specialize (C 0 b0 T0). pose proof (turned_low V l lo hi PT Ho Hlh E 0 b0 0 T0 ltac:(lra)). lra.
Qed.
(** below an energy at which an angle difference is not positive there is no eigenvalue; for periodic problems the determinant is not negative there *)
Theorem C68_below : forall E, exact E -> tmin E <= 0 -> (forall E' n, exact E' -> hill n E' -> E <= E') /\ (sg = 1 -> 0 <= err E).
Proof using PT Hm Hsm Hsg.
  intros E X H. destruct (geometry E X) as (Ho & Hlh & M & HM & B). pose proof PIpos as HP.
  destruct (matching_exact calcT vm l m sm lo hi V sg PT Hm Hsm Hsg E X) as (p & p' & q & q' & f & g & Sp & Sq & P0 & P1 & Q0 & Q1 & Np & Nq & Af & Ag & F1 & F2 & G1 & G2 & EE & Em & _). rewrite Em in H.
  assert (exists z z' h, solution V E lo hi l z z' /\ nontrivial z z' lo hi /\ ang 1 z z' lo hi h /\ h hi - h lo <= 0) as (z & z' & h & Sz & Nz & Ah & Hh).
  { unfold Rmin in H. destruct (Rle_dec _ _) in H.
    - exists p, p', f. repeat (split; [assumption|]). destruct (Rle_lt_dec (f hi - f lo) 0) as [|L]; [assumption|]. assert (0 < col_diff calcT vm l m lo hi sg 1 1 E) by (apply (F2 0%Z); lra). lra.
    - exists q, q', g. repeat (split; [assumption|]). destruct (Rle_lt_dec (g hi - g lo) 0) as [|L]; [assumption|]. assert (0 < col_diff calcT vm l m lo hi sg 1 (-1) E) by (apply (G2 0%Z); lra). lra. }
  assert (turned E (h lo) (h hi)) as T by (exists z, z', h; auto). split.
  - intros E' n X' H'. destruct (Rle_lt_dec E E') as [|L]; [assumption|exfalso]. destruct (solvable E' (h lo) X') as [b T']. pose proof (turned_energy V l lo hi PT Ho Hlh E' E _ _ _ L T' T) as Q.
    pose proof (hill_window V l lo hi M PT Ho B HM Hlh sg n E' Hsg H' _ _ T') as W. destruct (hill_turned V l lo hi PT Ho Hlh sg n E' Hsg H') as (_ & Nn & _).
    assert (n = 0)%Z as -> by (assert ((IZR n - 1) * PI < 0 * PI) as L1 by lra; apply Rmult_lt_reg_r in L1; [|lra]; rewrite <- minus_IZR in L1; apply lt_IZR in L1; lia).
    pose proof (ground_side E' X' H' _ _ T'). lra.
  - intros Es. destruct (solvable E 0 X) as [b0 T0]. pose proof (turned_low V l lo hi PT Ho Hlh E 0 b0 0 T0 ltac:(lra)) as L0. rewrite Rmult_0_l in L0.
    pose proof (turned_close V l lo hi M PT Ho B HM Hlh E _ _ _ _ T0 T) as L1. pose proof (turned_gt V l lo hi PT Ho Hlh E _ _ T) as L2.
    pose proof T0 as (w & w' & k & Sw & Nw & Ak & K0 & K1).
    destruct (polar_ends V l lo hi Hlh E z z' h Sz Nz Ah) as (c1 & C1 & A1 & _). destruct (polar_ends V l lo hi Hlh E w w' k Sw Nw Ak) as (c2 & C2 & A2 & _). rewrite K0, K1 in A2.
    assert (0 <= - c1 * sin (h hi - h lo)) as S1. { assert (0 <= sin (- (h hi - h lo))) as Q by (apply sin_ge_0; lra). rewrite sin_neg in Q. nra. }
    assert (- c2 * sin (b0 - 0) < 0) as S2. { assert (0 < sin (b0 - 0)) as Q by (apply sin_gt_0; lra). nra. }
    pose proof (indefinite V l lo hi M PT Ho B HM Hlh E p p' q q' Sp Sq P0 P1 Q0 Q1 z z' w w' Sz Nz Sw ltac:(lra) ltac:(lra)) as I.
    destruct (trace_root hi p p' q q' I) as (lam & NL & TR).
    destruct (eigen_exists V l lo hi M PT Ho B HM Hlh E p p' q q' Sp Sq P0 P1 Q0 Q1 lam TR) as (y & y' & Sy & Ny & Y0 & Y1).
    destruct (eigen_turn V l lo hi PT Ho Hlh E y y' lam Sy Ny NL Y0 Y1) as (a & j & zs & Tj & Pj & _ & Ej).
    pose proof (turned_close V l lo hi M PT Ho B HM Hlh E _ _ _ _ Tj T) as L3. assert (IZR j * PI < 1 * PI) as L4 by lra. apply Rmult_lt_reg_r in L4; [|lra]. apply lt_IZR in L4.
    assert (j = 0)%Z as -> by lia. unfold psign in Pj. cbn in Pj. rewrite EE, Es. unfold tr2.
    assert (4 <= trace2 hi p p' q q'); [|lra]. apply (Rmult_le_reg_l lam); [lra|]. rewrite TR. nra.
Qed.
Theorem C68_ground : forall E1 E2, exact E1 -> exact E2 -> hill 0 E1 -> hill 0 E2 -> E1 = E2.
Proof using PT Hm Hsm Hsg.
  assert (forall E1 E2, exact E1 -> exact E2 -> E1 < E2 -> hill 0 E1 -> hill 0 E2 -> False) as K.
  { intros E1 E2 X1 X2 L H1 H2. destruct (geometry E1 X1) as (Ho & Hlh & M & HM & B). destruct (hill_turned V l lo hi PT Ho Hlh sg 0 E2 Hsg H2) as (_ & _ & a & T2).
    destruct (solvable E1 a X1) as [b T1]. pose proof (turned_energy V l lo hi PT Ho Hlh E1 E2 _ _ _ L T1 T2). pose proof (ground_side E1 X1 H1 _ _ T1). lra. }
  intros E1 E2 X1 X2 H1 H2. destruct (Rtotal_order E1 E2) as [L|[L|L]]; [exfalso; eauto|exact L|exfalso; eauto].
Qed.

(** ---- the computed numbers as functions of the energy *)
Theorem C67_monotone : forall p q, (forall E, p <= E <= q -> exact E) -> rises_through_integers tmin p q /\ rises_through_integers tmax p q.
Proof using PT Hm Hsm Hsg.
  intros p q X.
  assert (forall u0 u1, u0 <> 0 -> rises_through_integers (col_diff calcT vm l m lo hi sg u0 u1) p q) as K.
  { intros u0 u1 Hu. apply (C65_rises calcT vm l m sm lo hi V); auto; [left; cbn; lra|left; cbn; apply Rmult_integral_contrapositive_currified; [apply (sg_nz sg Hsg)|assumption]|]. intros E HE. apply X, HE. }
  assert (forall E, p <= E <= q -> tmin E = Rmin (col_diff calcT vm l m lo hi sg 1 1 E) (col_diff calcT vm l m lo hi sg 1 (-1) E) /\ tmax E = Rmax (col_diff calcT vm l m lo hi sg 1 1 E) (col_diff calcT vm l m lo hi sg 1 (-1) E)) as Q.
  { intros E HE. destruct (matching_exact calcT vm l m sm lo hi V sg PT Hm Hsm Hsg E (X E HE)) as (p0 & p' & q0 & q' & f & g & _ & _ & _ & _ & _ & _ & _ & _ & _ & _ & _ & _ & _ & _ & _ & Em & Ex). auto. }
  pose proof (K 1 1 ltac:(lra)) as K1. pose proof (K 1 (-1) ltac:(lra)) as K2.
  split; intros k E1 E2 H1 H12 H2 Hk; destruct (Q E1 ltac:(lra)) as [Q1 Q1']; destruct (Q E2 ltac:(lra)) as [Q2 Q2'].
  - rewrite Q1 in Hk. rewrite Q2. pose proof (Rmin_l (col_diff calcT vm l m lo hi sg 1 1 E1) (col_diff calcT vm l m lo hi sg 1 (-1) E1)). pose proof (Rmin_r (col_diff calcT vm l m lo hi sg 1 1 E1) (col_diff calcT vm l m lo hi sg 1 (-1) E1)).
    apply Rmin_glb_lt; [apply (K1 k E1 E2)|apply (K2 k E1 E2)]; lra.
  - rewrite Q1' in Hk. rewrite Q2'. destruct (Rle_dec (col_diff calcT vm l m lo hi sg 1 1 E1) (col_diff calcT vm l m lo hi sg 1 (-1) E1)) as [Z|Z].
    + rewrite Rmax_right in Hk by exact Z. eapply Rlt_le_trans; [apply (K2 k E1 E2); lra|apply Rmax_r].
    + rewrite Rmax_left in Hk by lra. eapply Rlt_le_trans; [apply (K1 k E1 E2); lra|apply Rmax_l].
Qed.
Theorem C67_order : forall E, exact E -> -1 < tmin E <= tmax E.
Proof using PT Hm Hsm Hsg.
  intros E X. destruct (matching_exact calcT vm l m sm lo hi V sg PT Hm Hsm Hsg E X) as (p & p' & q & q' & f & g & _ & _ & _ & _ & _ & _ & _ & _ & _ & _ & _ & _ & _ & _ & _ & -> & ->).
  split.
  - assert (forall u0 u1, u0 <> 0 -> -1 < col_diff calcT vm l m lo hi sg u0 u1 E) as K; [|apply Rmin_glb_lt; apply K; lra].
    intros u0 u1 Hu. apply (difference_lower calcT vm l m sm lo hi V); auto; [left; cbn; lra|left; cbn; apply Rmult_integral_contrapositive_currified; [apply (sg_nz sg Hsg)|assumption]].
  - eapply Rle_trans; [apply Rmin_l|apply Rmax_l].
Qed.
Theorem C67_continuous : forall p q, (forall E, p < E < q -> exact E) -> forall a b, p < a -> b < q ->
  continuous_on err a b /\ continuous_on tmin a b /\ continuous_on tmax a b.
Proof using PT Hm Hsm Hsg.
  intros p q X a b Ha Hb.
  assert (forall u0 u1, u0 <> 0 -> continuous_on (col_diff calcT vm l m lo hi sg u0 u1) a b) as K.
  { intros u0 u1 Hu. apply (C65_continuous calcT vm l m sm lo hi V) with (p := p) (q := q); auto; [left; cbn; lra|left; cbn; apply Rmult_integral_contrapositive_currified; [apply (sg_nz sg Hsg)|assumption]|]. intros E HE. apply X, HE. }
  assert (forall (f g : R -> R) E, a <= E <= b -> (forall E, p < E < q -> f E = g E) -> continuity_pt g E -> continuity_pt f E) as Loc.
  { intros f g E HE Hfg C. apply continuity_pt_filterlim. apply (continuous_ext_loc _ g); [|apply continuity_pt_filterlim; exact C].
    assert (0 < Rmin (E - p) (q - E)) as Hd by (apply Rmin_glb_lt; lra). exists (mkposreal _ Hd). intros y Hy.
    unfold ball in Hy. cbn in Hy. unfold AbsRing_ball, abs, minus, plus, opp in Hy. cbn in Hy. fold (Rminus y E) in Hy. apply Rabs_def2 in Hy.
    pose proof (Rmin_l (E - p) (q - E)). pose proof (Rmin_r (E - p) (q - E)). symmetry. apply Hfg. lra. }
  pose proof (K 1 1 ltac:(lra)) as K1. pose proof (K 1 (-1) ltac:(lra)) as K2.
  assert (forall E, p < E < q -> tmin E = Rmin (col_diff calcT vm l m lo hi sg 1 1 E) (col_diff calcT vm l m lo hi sg 1 (-1) E) /\ tmax E = Rmax (col_diff calcT vm l m lo hi sg 1 1 E) (col_diff calcT vm l m lo hi sg 1 (-1) E)) as Q.
  { intros E HE. destruct (matching_exact calcT vm l m sm lo hi V sg PT Hm Hsm Hsg E (X E HE)) as (p0 & p' & q0 & q' & f & g & _ & _ & _ & _ & _ & _ & _ & _ & _ & _ & _ & _ & _ & _ & _ & Em & Ex). auto. }
  split; [|split].
  - intros E0 HE0. pose proof (X E0 ltac:(lra)) as X0. destruct (geometry E0 X0) as (Ho & Hlh & M & HM & B).
    destruct (matching_exact calcT vm l m sm lo hi V sg PT Hm Hsm Hsg E0 X0) as (p0 & p0' & q0 & q0' & f & g & Sp & Sq & P0 & P1 & Q0 & Q1 & _ & _ & _ & _ & _ & _ & _ & _ & EE & _).
    assert (forall s : sec, In s l -> smin s <= smax s) as Hle by (intros s Hs; left; apply Ho, Hs).
    destruct (solution_lip V l lo hi M (proj2 PT) Hle B HM E0 p0 p0' lo ltac:(lra) Sp) as (C1 & HC1 & Lp). destruct (solution_lip V l lo hi M (proj2 PT) Hle B HM E0 q0 q0' lo ltac:(lra) Sq) as (C2 & HC2 & Lq).
    assert (Rabs sg = 1) as As. { assert (sg = 1 \/ sg = -1) as [-> | ->]; [|apply Rabs_R1|rewrite Rabs_left by lra; lra]. assert ((sg - 1) * (sg + 1) = 0) as Z by lra. apply Rmult_integral in Z as [Z|Z]; [left|right]; lra. }
    intros eps Heps. set (C := 2 * C1 + 2 * C2 + 1). assert (0 < C) as HC by (unfold C; lra).
    assert (0 < Rmin 1 (Rmin (eps / C) (Rmin (E0 - p) (q - E0)))) as Hd. { assert (0 < eps / C) by (apply Rdiv_lt_0_compat; lra). repeat apply Rmin_glb_lt; lra. }
    exists (Rmin 1 (Rmin (eps / C) (Rmin (E0 - p) (q - E0)))). split; [exact Hd|]. intros E [_ HE]. unfold dist in *. simpl in *. unfold R_dist in *.
    set (d := Rmin 1 (Rmin (eps / C) (Rmin (E0 - p) (q - E0)))) in *.
    assert (d <= 1 /\ d <= eps / C /\ d <= E0 - p /\ d <= q - E0) as (D1 & D2 & D3 & D4).
    { unfold d. split; [apply Rmin_l|]. assert (Rmin (eps / C) (Rmin (E0 - p) (q - E0)) <= eps / C) by apply Rmin_l. assert (Rmin (eps / C) (Rmin (E0 - p) (q - E0)) <= Rmin (E0 - p) (q - E0)) by apply Rmin_r. pose proof (Rmin_l (E0 - p) (q - E0)). pose proof (Rmin_r (E0 - p) (q - E0)). pose proof (Rmin_r 1 (Rmin (eps / C) (Rmin (E0 - p) (q - E0)))). lra. }
    assert (p < E < q) as HEpq by (apply Rabs_def2 in HE; lra).
    destruct (matching_exact calcT vm l m sm lo hi V sg PT Hm Hsm Hsg E (X E HEpq)) as (p1 & p1' & q1 & q1' & f1 & g1 & Sp1 & Sq1 & P01 & P11 & Q01 & Q11 & _ & _ & _ & _ & _ & _ & _ & _ & EE1 & _).
    destruct (Lp E p1 p1' ltac:(lra) Sp1 ltac:(lra) ltac:(lra) hi ltac:(lra)) as [I1 I2]. destruct (Lq E q1 q1' ltac:(lra) Sq1 ltac:(lra) ltac:(lra) hi ltac:(lra)) as [I3 I4].
    rewrite EE, EE1. unfold tr2, trace2.
    replace (sg * (p1 hi + q1 hi + p1' hi - q1' hi) - 4 - (sg * (p0 hi + q0 hi + p0' hi - q0' hi) - 4)) with (sg * ((p1 hi - p0 hi) + (q1 hi - q0 hi) + (p1' hi - p0' hi) - (q1' hi - q0' hi))) by ring.
    rewrite Rabs_mult, As, Rmult_1_l. set (x := Rabs (E - E0)) in *. pose proof (Rabs_pos (E - E0)) as Hx. fold x in Hx.
    assert (forall a b c d A, Rabs a <= A * x -> Rabs b <= A * x -> Rabs c <= A * x -> Rabs d <= A * x -> Rabs (a + b + c - d) <= 4 * A * x) as T4.
    { intros a0 b0 c0 d0 A HA HB HC' HD. apply Rabs_le_between in HA, HB, HC', HD. apply Rabs_le. lra. }
    apply Rabs_le_between in I1, I2, I3, I4.
    apply Rle_lt_trans with (C * x). { apply Rabs_le. unfold C. lra. }
    apply Rlt_le_trans with (C * (eps / C)); [apply Rmult_lt_compat_l; lra|]. right. field. lra.
  - intros E HE. apply (Loc _ (fun E => Rmin (col_diff calcT vm l m lo hi sg 1 1 E) (col_diff calcT vm l m lo hi sg 1 (-1) E)) E HE); [intros t Ht; apply (Q t Ht)|].
    apply (continuity_pt_ext (fun E => (col_diff calcT vm l m lo hi sg 1 1 E + col_diff calcT vm l m lo hi sg 1 (-1) E - Rabs (col_diff calcT vm l m lo hi sg 1 1 E - col_diff calcT vm l m lo hi sg 1 (-1) E)) / 2)).
    { intro t. unfold Rmin. destruct (Rle_dec _ _); [rewrite Rabs_left1 by lra|rewrite Rabs_right by lra]; lra. }
    apply continuity_pt_mult; [|apply continuity_pt_const; intros ? ?; reflexivity]. apply continuity_pt_minus; [apply continuity_pt_plus; auto|].
    apply (continuity_pt_comp (fun E => col_diff calcT vm l m lo hi sg 1 1 E - col_diff calcT vm l m lo hi sg 1 (-1) E) Rabs); [apply continuity_pt_minus; auto|apply Rcontinuity_abs].
  - intros E HE. apply (Loc _ (fun E => Rmax (col_diff calcT vm l m lo hi sg 1 1 E) (col_diff calcT vm l m lo hi sg 1 (-1) E)) E HE); [intros t Ht; apply (Q t Ht)|].
    apply (continuity_pt_ext (fun E => (col_diff calcT vm l m lo hi sg 1 1 E + col_diff calcT vm l m lo hi sg 1 (-1) E + Rabs (col_diff calcT vm l m lo hi sg 1 1 E - col_diff calcT vm l m lo hi sg 1 (-1) E)) / 2)).
    { intro t. unfold Rmax. destruct (Rle_dec _ _); [rewrite Rabs_left1 by lra|rewrite Rabs_right by lra]; lra. }
    apply continuity_pt_mult; [|apply continuity_pt_const; intros ? ?; reflexivity]. apply continuity_pt_plus; [apply continuity_pt_plus; auto|].
    apply (continuity_pt_comp (fun E => col_diff calcT vm l m lo hi sg 1 1 E - col_diff calcT vm l m lo hi sg 1 (-1) E) Rabs); [apply continuity_pt_minus; auto|apply Rcontinuity_abs].
Qed.
End Hill.
