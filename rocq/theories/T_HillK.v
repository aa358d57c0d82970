(** C73: periodic problems with a general matrix K of determinant 1: y(hi) = K y(lo). *)
From Coq Require Import String Reals Ranalysis5 ZArith Lra Lia Bool.
From Coquelicot Require Import Coquelicot.
From Coq Require Import List.
From Verif Require Import Base M_Search M_Sectors S_Sectors P_Lookup M_Core S_Core P_Core P_Core2 P_Prufer S_Eta P_Eta S_Formulas M_Formulas P_Terms2 S_Accuracy S_Zeros P_Lift P_Lift2 P_Cross P_Global2 P_Global3 P_Global5 P_Step P_Step2 P_Count P_Count2 P_Constant P_Sturm P_Sturm2 P_Sturm3 T_Core T_Zeros S_Search T_Search T_Sturm M_Periodic T_Periodic S_Hill P_Hill P_Hill2 P_Hill3 P_Hill4 P_HillK T_Hill T_Hill2.
Import ListNotations.
Open Scope R_scope.

Section HillK.
Variable calcT : sec -> R -> R -> bool -> Tm.
Variable vm : R.
Variables (l : list sec) (m : Z) (sm : sec) (lo hi : R) (V : R -> R) (K : M22).
Hypothesis PT : partition lo hi l.
Hypothesis Hm : vget l m = Ret sm.
Hypothesis Hsm : smax sm < hi.
Hypothesis HK : m00 K * m11 K - m01 K * m10 K = 1.
Notation exact := (hill_exact calcT V lo hi l (smax sm)).
Notation err := (hill_err calcT vm l m lo hi K).
Notation tmin := (hill_tmin calcT vm l m lo hi K).
Notation tmax := (hill_tmax calcT vm l m lo hi K).
Notation eigen := (K_eigen V lo hi l K).
Notation turned := (turned V l lo hi).

(** with exact steps the determinant vanishes exactly at the eigenvalues, for every K *)
Theorem C73_zero : forall E, exact E -> (err E = 0 <-> eigen E).
Proof using PT Hm Hsm HK.
  intros E X. destruct (geometry calcT l m sm lo hi V PT Hm Hsm E X) as (Ho & Hlh & M & HM & B).
  destruct (matchingK_exact calcT vm l m sm lo hi V PT Hm Hsm K HK E X) as (p & p' & q & q' & f & g & b1 & b2 & Sp & Sq & P0 & P1 & Q0 & Q1 & _ & _ & _ & _ & _ & _ & _ & _ & _ & _ & _ & _ & _ & _ & EE & _). rewrite EE. split.
  - intro Z. destruct (kernel2_ex (p hi - (m00 K + m01 K)) (q hi - (m00 K - m01 K)) (p' hi - (m10 K + m11 K)) (q' hi - (m10 K - m11 K))) as (x & y & Nxy & K1 & K2); [lra|].
    pose proof (solution_comb V l lo hi E p p' q q' x y Sp Sq) as C.
    exists (fun t => x * p t + y * q t), (fun t => x * p' t + y * q' t). split; [exact C|]. split.
    + apply (nontrivial_at V l lo hi M PT Ho B HM E _ _ lo C ltac:(lra)). rewrite P0, P1, Q0, Q1.
      destruct (Req_dec x 0) as [ZA|ZA]; [destruct (Req_dec y 0) as [ZB|ZB]; [destruct Nxy; contradiction|left; lra]|]. destruct (Req_dec (x * 1 + y * 1) 0); [right|left]; lra.
    + rewrite P0, P1, Q0, Q1. lra.
  - intros (z & z' & S & N & H0 & H1).
    destruct (basis_span V l lo hi M PT Ho B HM Hlh E p p' q q' Sp Sq P0 P1 Q0 Q1 z z' S) as (A0 & A1 & A2 & A3). set (x := (z lo + z' lo) / 2) in *. set (y := (z lo - z' lo) / 2) in *.
    transitivity ((p hi - (m00 K + m01 K)) * (q' hi - (m10 K - m11 K)) - (q hi - (m00 K - m01 K)) * (p' hi - (m10 K + m11 K))); [ring|].
    apply (kernel2 _ _ _ _ x y).
    + destruct (N lo ltac:(lra)) as [Nz|Nz]; destruct (Req_dec x 0) as [Zx|Zx]; [right|left|right|left]; lra.
    + rewrite A2, A0, A1 in H0. lra.
    + rewrite A3, A0, A1 in H1. lra.
Qed.

(** if the first row of K is dominated by its first entry, with the sign the search expects, every eigenvalue lies in a window
    of the parity at which the search starts: between the energy at which the smaller angle difference is n - 1 and the one at
    which the larger is n + 1 (without the hypothesis this is false, see C73_refuted) *)
Theorem C73_window_partial : forall E, exact E -> m01 K <= 0 < m00 K + m01 K \/ m00 K + m01 K < 0 <= m01 K -> eigen E ->
  exists n, Z.even n = negb (K_antiperiodic K) /\ IZR n - 1 < tmin E /\ tmax E < IZR n + 1.
Proof using PT Hm Hsm HK.
  intros E X Good (z & z' & S & N & H0 & H1). pose proof PIpos as HP. destruct (geometry calcT l m sm lo hi V PT Hm Hsm E X) as (Ho & Hlh & M & HM & B).
  destruct (matchingK_exact calcT vm l m sm lo hi V PT Hm Hsm K HK E X) as (p & p' & q & q' & f & g & b1 & b2 & Sp & Sq & P0 & P1 & Q0 & Q1 & Np & Nq & Af & Ag & If & Ig & Ib1 & Ib2 & Eb1 & Eb2 & F1 & F2 & G1 & G2 & _ & Em & Ex).
  set (ka := m00 K + m01 K) in *. set (kb := m10 K + m11 K) in *. set (kd := m00 K - m01 K) in *. set (ke := m10 K - m11 K) in *.
  assert (ka * ke - kb * kd = -2) as KD by (unfold ka, kb, kd, ke; lra).
  (* the sign of the columns *)
  set (e := if K_antiperiodic K then -1 else 1).
  assert ((e = 1 \/ e = -1) /\ 0 < e * ka /\ 0 < e * kd) as (Pe & Ska & Skd).
  { unfold e, K_antiperiodic. destruct (Rltb 0 (m01 K)) eqn:L1; [apply Rltb_true in L1|apply Rltb_false in L1]; cbn [orb].
    - split; [right; reflexivity|]. unfold ka, kd in *. lra.
    - destruct (Reqb (m01 K) 0) eqn:L2; [apply Reqb_true in L2|apply Reqb_false in L2]; cbn [andb].
      + destruct (Rltb (m00 K) 0) eqn:L3; [apply Rltb_true in L3|apply Rltb_false in L3]; (split; [auto|]); unfold ka, kd in *; lra.
      + split; [left; reflexivity|]. unfold ka, kd in *. lra. }
  assert (e * e = 1) as Ee by (destruct Pe as [-> | ->]; lra).
  assert (forall n, psign n = e -> Z.even n = negb (K_antiperiodic K)) as Par.
  { intros n Pn. unfold psign, e in Pn. destruct (Z.even n), (K_antiperiodic K); cbn; try reflexivity; lra. }
  (* angles of the columns: e (ka, kb) = r1 (sin b1, cos b1) *)
  assert (forall b k0 k1, 0 < b <= PI -> k0 * cos b = k1 * sin b -> 0 < e * k0 -> b < PI /\ exists r, 0 < r /\ k0 = e * r * sin b /\ k1 = e * r * cos b) as Col.
  { intros b k0 k1 Ib Eb Hs. assert (b < PI) as Lb. { destruct (proj2 Ib) as [|Z]; [assumption|]. rewrite Z, sin_PI, cos_PI in Eb. assert (k0 = 0) as Z0 by lra. rewrite Z0 in Hs. lra. }
    split; [exact Lb|]. assert (0 < sin b) as Sb by (apply sin_gt_0; lra). exists (e * k0 / sin b). split; [apply Rdiv_lt_0_compat; assumption|].
    split; [transitivity (e * e * k0); [rewrite Ee; ring|field; lra]|]. transitivity (e * e * (k0 * cos b) / sin b); [rewrite Ee, Eb; field; lra|field; lra]. }
  destruct (Col b1 ka kb Ib1 Eb1 Ska) as (Lb1 & r1 & Pr1 & Ka & Kb). destruct (Col b2 kd ke Ib2 Eb2 Skd) as (Lb2 & r2 & Pr2 & Kd & Ke).
  assert (b1 < b2) as L12.
  { assert (0 < sin (b2 - b1)) as Sn. { rewrite sin_minus. rewrite Ka, Kb, Kd, Ke in KD. assert (r1 * r2 * (e * e) * (sin b2 * cos b1 - cos b2 * sin b1) = 2) as Q by lra. rewrite Ee in Q. assert (0 < r1 * r2) by (apply Rmult_lt_0_compat; assumption). destruct (Rlt_le_dec 0 (sin b2 * cos b1 - cos b2 * sin b1)) as [|C]; [assumption|]. nra. }
    destruct (Rlt_le_dec b1 b2) as [|C]; [assumption|]. exfalso. assert (0 <= sin (b1 - b2)) as Q by (apply sin_ge_0; lra). replace (b1 - b2) with (- (b2 - b1)) in Q by ring. rewrite sin_neg in Q. lra. }
  (* start angles *)
  assert (f lo = PI / 4) as Fl.
  { assert (f lo - PI / 4 = 0); [|lra]. apply mult_pi_small; [|lra]. apply (angles_pi 1 1); [left; lra| |rewrite cos_PI4, sin_PI4; ring]. pose proof (proj2 Af lo ltac:(lra)) as Q. cbv beta in Q. rewrite P0, P1 in Q. lra. }
  assert (g lo = 3 * (PI / 4)) as Gl.
  { assert (g lo - 3 * (PI / 4) = 0); [|lra]. apply mult_pi_small; [|lra]. apply (angles_pi 1 (-1)); [left; lra| |].
    - pose proof (proj2 Ag lo ltac:(lra)) as Q. cbv beta in Q. rewrite Q0, Q1 in Q. lra.
    - replace (3 * (PI / 4)) with (PI - PI / 4) by field. rewrite sin_PI_x. rewrite cos_minus, cos_PI, sin_PI, cos_PI4, sin_PI4. ring. }
  assert (turned E (f lo) (f hi)) as Tf by (exists p, p', f; auto). assert (turned E (g lo) (g hi)) as Tg by (exists q, q', g; auto).
  (* the eigenfunction, its start angle in [pi/4, pi/4 + pi) *)
  destruct (turned_from V l lo hi Hlh E z z' S N) as (a0 & b0 & h0 & T0 & A0 & Ea0 & Eb0).
  set (k := (- flr (a0 - f lo))%Z). set (h := fun x => h0 x + IZR k * PI).
  assert (ang 1 z z' lo hi h) as Ah.
  { apply lift_shift, A0. }
  set (a := h lo). set (b := h hi).
  assert (turned E a b) as T by (exists z, z', h; auto).
  assert (f lo <= a < f lo + PI) as Ia. { unfold a, h, k. rewrite Ea0, opp_IZR. pose proof (flr_spec (a0 - f lo)). lra. }
  assert (f hi <= b < f hi + PI /\ (f lo < a -> f hi < b)) as [Ib Ibs].
  { split; [split|].
    - apply (turned_le V l lo hi M PT Ho B HM Hlh E _ _ _ _ Tf T). lra.
    - pose proof (turned_shift V l lo hi E _ _ 1%Z Tf) as Tf1. rewrite Rmult_1_l in Tf1. apply (turned_lt V l lo hi M PT Ho B HM Hlh E _ _ _ _ T Tf1). lra.
    - intro L. apply (turned_lt V l lo hi M PT Ho B HM Hlh E _ _ _ _ Tf T L). }
  destruct (ang_polar 1 z z' lo hi h ltac:(lra) (proj1 S) N Ah) as [c P].
  destruct (P lo ltac:(lra)) as (_ & Z0 & Z1). destruct (P hi ltac:(lra)) as (Hc & Z2 & Z3). rewrite Rmult_1_l in Z0, Z2. fold a in Z0, Z1. fold b in Z2, Z3.
  assert (c lo <> 0) as Nc by (intro Zc; rewrite Zc in Hc; lra).
  set (r := c hi / c lo). assert (0 < r) as Pr. { unfold r. replace (c hi / c lo) with (c lo * c hi / (c lo * c lo)) by (field; exact Nc). apply Rdiv_lt_0_compat; [exact Hc|]. nra. }
  assert (r * sin b = m00 K * sin a + m01 K * cos a) as K0. { apply (Rmult_eq_reg_l (c lo)); [|exact Nc]. transitivity (c hi * sin b); [unfold r; field; exact Nc|]. rewrite <- Z2, H0, Z0, Z1. ring. }
  assert (r * cos b = m10 K * sin a + m11 K * cos a) as K1. { apply (Rmult_eq_reg_l (c lo)); [|exact Nc]. transitivity (c hi * cos b); [unfold r; field; exact Nc|]. rewrite <- Z3, H1, Z0, Z1. ring. }
  (* areas: K preserves them *)
  assert (e * r1 * r * sin (b - b1) = sin a - cos a) as D1.
  { rewrite sin_minus. transitivity ((e * r1 * cos b1) * (r * sin b) - (e * r1 * sin b1) * (r * cos b)); [ring|]. rewrite <- Ka, <- Kb, K0, K1. unfold ka, kb.
    transitivity ((m00 K * m11 K - m01 K * m10 K) * (sin a - cos a)); [ring|rewrite HK; ring]. }
  assert (e * r2 * r * sin (b - b2) = - (sin a + cos a)) as D2.
  { rewrite sin_minus. transitivity ((e * r2 * cos b2) * (r * sin b) - (e * r2 * sin b2) * (r * cos b)); [ring|]. rewrite <- Kd, <- Ke, K0, K1. unfold kd, ke.
    transitivity (- ((m00 K * m11 K - m01 K * m10 K) * (sin a + cos a))); [ring|rewrite HK; ring]. }
  assert (sin a - cos a = sqrt 2 * sin (a - PI / 4)) as U1.
  { rewrite sin_minus, cos_PI4, sin_PI4. pose proof sqrt2_neq_0. field. assumption. }
  assert (- (sin a + cos a) = sqrt 2 * sin (a - 3 * (PI / 4))) as U2.
  { replace (a - 3 * (PI / 4)) with (a + PI / 4 - PI) by field. rewrite sin_minus, sin_PI, cos_PI, sin_plus, cos_PI4, sin_PI4. pose proof sqrt2_neq_0. field. assumption. }
  pose proof Rlt_sqrt2_0 as S2.
  assert (forall n t, psign n = e -> (IZR n - 1) * PI < t < (IZR n + 1) * PI -> (IZR n * PI < t <-> 0 < e * sin t) /\ (t < IZR n * PI <-> e * sin t < 0)) as SS.
  { intros n t <- I. apply (sin_sign t n I). }
  assert (0 < r1 * r) as Q1' by (apply Rmult_lt_0_compat; assumption). assert (0 < r2 * r) as Q2' by (apply Rmult_lt_0_compat; assumption).
  assert (forall x y u v, 0 < x -> 0 < y -> e * x * u = y * v -> (0 < e * u <-> 0 < v) /\ (e * u < 0 <-> v < 0)) as Sgn.
  { intros x y u v Px Py H. assert (x * (e * u) = y * v) as Q by lra. split; split; intro L.
    - apply (Rmult_lt_reg_l y); [exact Py|]. rewrite Rmult_0_r, <- Q. apply Rmult_lt_0_compat; assumption.
    - apply (Rmult_lt_reg_l x); [exact Px|]. rewrite Rmult_0_r, Q. apply Rmult_lt_0_compat; assumption.
    - apply (Rmult_lt_reg_l y); [exact Py|]. rewrite Rmult_0_r, <- Q. nra.
    - apply (Rmult_lt_reg_l x); [exact Px|]. rewrite Rmult_0_r, Q. nra. }
  rewrite U1 in D1. rewrite U2 in D2.
  destruct (Sgn (r1 * r) (sqrt 2) (sin (b - b1)) (sin (a - PI / 4)) Q1' S2 ltac:(lra)) as [Sp1 Sn1].
  destruct (Sgn (r2 * r) (sqrt 2) (sin (b - b2)) (sin (a - 3 * (PI / 4))) Q2' S2 ltac:(lra)) as [Sp2 Sn2].
  (* the number of half turns *)
  assert (exists n, psign n = e /\ IZR n * PI <= b - b1 < (IZR n + 1) * PI) as (n & Pn & In1).
  { destruct (Rle_lt_or_eq_dec _ _ (proj1 Ia)) as [L|L].
    - exists (flr (b - b1)). pose proof (flr_spec (b - b1)) as FS. split; [|lra].
      assert (0 < e * sin (b - b1)) as Q by (apply Sp1; apply sin_gt_0; lra).
      destruct (psign_shift (flr (b - b1)) (b - b1 - IZR (flr (b - b1)) * PI)) as [Q3 _]. replace (b - b1 - IZR (flr (b - b1)) * PI + IZR (flr (b - b1)) * PI) with (b - b1) in Q3 by ring. rewrite Q3 in Q.
      assert (0 <= sin (b - b1 - IZR (flr (b - b1)) * PI)) as Q4 by (apply sin_ge_0; lra).
      assert (psign (flr (b - b1)) = 1 \/ psign (flr (b - b1)) = -1) as Pk by (unfold psign; destruct (Z.even _); auto).
      destruct Pk as [Pk|Pk], Pe as [Pe|Pe]; rewrite Pk, Pe in *; lra.
    - (* a = pi/4: parallel to the first column *)
      assert (a = PI / 4) as Ea by lra. rewrite Ea, cos_PI4, sin_PI4 in K0, K1.
      assert (r * sin b = e * (r1 / sqrt 2) * sin b1) as V0 by (rewrite K0; transitivity (ka / sqrt 2); [unfold ka; field; apply sqrt2_neq_0|rewrite Ka; field; apply sqrt2_neq_0]).
      assert (r * cos b = e * (r1 / sqrt 2) * cos b1) as V1 by (rewrite K1; transitivity (kb / sqrt 2); [unfold kb; field; apply sqrt2_neq_0|rewrite Kb; field; apply sqrt2_neq_0]).
      assert (0 < r1 / sqrt 2) as Pq by (apply Rdiv_lt_0_compat; assumption).
      assert (multiple_of_pi (b - b1)) as [n En].
      { apply (angles_pi (sin b1) (cos b1)).
        - pose proof (sin2_cos2 b1) as Q. unfold Rsqr in Q. destruct (Req_dec (sin b1) 0) as [Zs|]; [right|left; assumption]. intro Zc. rewrite Zs, Zc in Q. lra.
        - apply (Rmult_eq_reg_l (e * (r1 / sqrt 2) * r)).
          + transitivity ((e * (r1 / sqrt 2) * sin b1) * (r * cos b)); [ring|]. rewrite <- V0, V1. ring.
          + assert (e <> 0) by (destruct Pe as [-> | ->]; lra). apply Rmult_integral_contrapositive_currified; [apply Rmult_integral_contrapositive_currified; lra|lra].
        - ring. }
      exists n. split; [|lra].
      destruct (psign_shift n b1) as [Q3 Q4]. replace (b1 + IZR n * PI) with b in Q3, Q4 by lra. rewrite Q3 in V0. rewrite Q4 in V1.
      assert (r * psign n * (sin b1 * sin b1 + cos b1 * cos b1) = e * (r1 / sqrt 2) * (sin b1 * sin b1 + cos b1 * cos b1)) as Q5.
      { transitivity (sin b1 * (r * (psign n * sin b1)) + cos b1 * (r * (psign n * cos b1))); [ring|rewrite V0, V1; ring]. }
      pose proof (sin2_cos2 b1) as Q. unfold Rsqr in Q. rewrite Q in Q5.
      assert (psign n = 1 \/ psign n = -1) as Pk by (unfold psign; destruct (Z.even _); auto).
      destruct Pk as [Pk|Pk], Pe as [Pe|Pe]; rewrite Pk, Pe in *; lra. }
  exists n. split; [apply Par, Pn|].
  assert ((IZR n - 1) * PI < f hi - b1 < (IZR n + 1) * PI) as Wf by lra.
  assert ((IZR n - 1) * PI < g hi - b2 < (IZR n + 1) * PI) as Wg.
  { destruct (Rle_lt_dec (g lo) a) as [La|La].
    - assert (g hi <= b) as L1 by (apply (turned_le V l lo hi M PT Ho B HM Hlh E _ _ _ _ Tg T La)).
      assert (b < g hi + PI) as L2. { pose proof (turned_shift V l lo hi E _ _ 1%Z Tg) as Tg1. rewrite Rmult_1_l in Tg1. apply (turned_lt V l lo hi M PT Ho B HM Hlh E _ _ _ _ T Tg1). lra. }
      assert (IZR n * PI <= b - b2) as L3.
      { destruct (Rle_lt_dec (IZR n * PI) (b - b2)) as [|C]; [assumption|exfalso]. apply (proj2 (SS n (b - b2) Pn ltac:(lra))) in C. apply Sn2 in C. pose proof (sin_ge_0 (a - 3 * (PI / 4)) ltac:(lra) ltac:(lra)). lra. }
      lra.
    - assert (b < g hi) as L1 by (apply (turned_lt V l lo hi M PT Ho B HM Hlh E _ _ _ _ T Tg La)).
      assert (g hi < b + PI) as L2. { pose proof (turned_shift V l lo hi E _ _ 1%Z T) as T1. rewrite Rmult_1_l in T1. apply (turned_lt V l lo hi M PT Ho B HM Hlh E _ _ _ _ Tg T1). lra. }
      assert (b - b2 < IZR n * PI) as L3.
      { apply (proj2 (SS n (b - b2) Pn ltac:(lra))). apply Sn2. replace (a - 3 * (PI / 4)) with (- (3 * (PI / 4) - a)) by ring. rewrite sin_neg. pose proof (sin_gt_0 (3 * (PI / 4) - a) ltac:(lra) ltac:(lra)). lra. }
      lra. }
  rewrite Em, Ex.
  assert (forall D t, (forall k, IZR k <= D <-> IZR k * PI <= t) -> (forall k, IZR k < D <-> IZR k * PI < t) -> (IZR n - 1) * PI < t < (IZR n + 1) * PI -> IZR n - 1 < D < IZR n + 1) as KK.
  { intros D t H2 H3 W. rewrite <- minus_IZR, <- plus_IZR in *. split; [apply H3; lra|]. destruct (Rlt_le_dec D (IZR (n + 1))) as [|L]; [assumption|]. apply H2 in L. lra. }
  pose proof (KK _ _ F1 F2 Wf). pose proof (KK _ _ G1 G2 Wg). split; [apply Rmin_glb_lt|apply Rmax_lub_lt]; lra.
Qed.
End HillK.

(** ---- the free particle on [0, 1] with K a quarter turn: y(1) = - y'(0), y'(1) = y(0) *)
Definition rot : M22 := mkM 0 (-1) 1 0.
Definition rot_err := hill_err (calculateT eta_exact) 0 two_sectors 0 0 1 rot.
Definition rot_derr := hill_derr (calculateT eta_exact) 0 two_sectors 0 0 1 rot.
Definition rot_tmin := hill_tmin (calculateT eta_exact) 0 two_sectors 0 0 1 rot.
Definition rot_tmax := hill_tmax (calculateT eta_exact) 0 two_sectors 0 0 1 rot.
Notation rot_eigen := (K_eigen (fun _ => 0) 0 1 two_sectors rot).
Notation turn0 := (turned (fun _ => 0) two_sectors 0 1).
Notation sol0 := (solution (fun _ => 0)).
Lemma rot_det : m00 rot * m11 rot - m01 rot * m10 rot = 1. Proof. cbn. lra. Qed.
Lemma fp_le : forall s : sec, In s two_sectors -> smin s <= smax s. Proof. intros; left; apply fp_ord; assumption. Qed.
Lemma fp_unique : forall E y y' z z', sol0 E 0 1 two_sectors y y' -> sol0 E 0 1 two_sectors z z' -> y 0 = z 0 -> y' 0 = z' 0 -> y 1 = z 1 /\ y' 1 = z' 1.
Proof.
  intros E y y' z z' Sy Sz H0 H1. destruct (solution_unique (fun _ => 0) two_sectors 0 1 0 (proj2 fp_pt) fp_le fp_bound ltac:(lra) E y y' z z' Sy Sz 1 0 ltac:(lra)) with (x := 1) as [A1 A2]; lra.
Qed.
Lemma start_angle : forall u v f0 a, 0 <= f0 < PI -> 0 <= a < PI -> 1 * u * cos f0 = v * sin f0 -> u * cos a = v * sin a -> u <> 0 -> f0 = a.
Proof.
  intros u v f0 a I1 I2 H1 H2 N. pose proof PIpos as HP. assert (f0 - a = 0); [|lra]. apply mult_pi_small; [|lra]. apply (angles_pi u v); [left; exact N| |lra]. lra.
Qed.
Lemma cos_3PI4' : cos (3 * (PI / 4)) = - (1 / sqrt 2).
Proof. replace (3 * (PI / 4)) with (PI - PI / 4) by field. rewrite cos_minus, cos_PI, sin_PI, cos_PI4, sin_PI4. ring. Qed.
Lemma sin_3PI4' : sin (3 * (PI / 4)) = 1 / sqrt 2.
Proof. replace (3 * (PI / 4)) with (PI - PI / 4) by field. rewrite sin_PI_x, sin_PI4. ring. Qed.
Lemma rot_data : forall E, exists fh gh C S,
  turn0 E (PI / 4) fh /\ turn0 E (3 * (PI / 4)) gh /\ rot_err E = -4 - 2 * ((1 + E) * S) /\ (E < PI * PI -> 0 < S) /\
  (exists k, 0 < k /\ (E + 1) * S = k * sin (gh - 3 * (PI / 4)) /\ 2 * C + (E - 1) * S = k * cos (gh - 3 * (PI / 4))) /\
  (forall y y', sol0 E 0 1 two_sectors y y' -> y 0 = 1 -> y' 0 = 0 -> y 1 = C) /\ (forall y y', sol0 E 0 1 two_sectors y y' -> y 0 = 0 -> y' 0 = 1 -> y 1 = S) /\
  (forall k, IZR k <= rot_tmax E <-> IZR k * PI <= fh - 3 * (PI / 4) \/ IZR k * PI <= gh - PI / 4) /\
  (0 < rot_tmin E -> 0 < fh - 3 * (PI / 4)) /\ rot_tmin E <= rot_tmax E.
Proof.
  intro E. pose proof PIpos as HP.
  destruct (matchingK_exact (calculateT eta_exact) 0 two_sectors 0 fp_sector 0 1 (fun _ => 0) fp_pt fp_m fp_sm rot rot_det E (fp_exact E)) as (p & p' & q & q' & f & g & b1 & b2 & Sp & Sq & P0 & P1 & Q0 & Q1 & Np & Nq & Af & Ag & If & Ig & Ib1 & Ib2 & Eb1 & Eb2 & F1 & F2 & G1 & G2 & EE & Em & Ex).
  change (m00 rot) with 0 in *. change (m01 rot) with (-1) in *. change (m10 rot) with 1 in *. change (m11 rot) with 0 in *.
  assert (f 0 = PI / 4) as Fl. { apply (start_angle 1 1); [exact If|lra| |rewrite cos_PI4, sin_PI4; ring|lra]. pose proof (proj2 Af 0 ltac:(lra)) as Q. cbv beta in Q. rewrite P0, P1 in Q. lra. }
  assert (g 0 = 3 * (PI / 4)) as Gl. { apply (start_angle 1 (-1)); [exact Ig|lra| |rewrite cos_3PI4', sin_3PI4'; ring|lra]. pose proof (proj2 Ag 0 ltac:(lra)) as Q. cbv beta in Q. rewrite Q0, Q1 in Q. lra. }
  assert (b1 = 3 * (PI / 4)) as B1.
  { destruct (proj2 Ib1) as [L|Z]; [|rewrite Z, cos_PI, sin_PI in Eb1; lra]. apply (start_angle 1 (-1)); [lra|lra|lra|rewrite cos_3PI4', sin_3PI4'; ring|lra]. }
  assert (b2 = PI / 4) as B2.
  { destruct (proj2 Ib2) as [L|Z]; [|rewrite Z, cos_PI, sin_PI in Eb2; lra]. apply (start_angle 1 1); [lra|lra|lra|rewrite cos_PI4, sin_PI4; ring|lra]. }
  set (S := (p 1 - q 1) / 2). set (C := (p 1 + q 1) / 2).
  set (s := fun x => / 2 * p x + - / 2 * q x). set (s' := fun x => / 2 * p' x + - / 2 * q' x).
  pose proof (solution_comb (fun _ => 0) two_sectors 0 1 E p p' q q' (/ 2) (- / 2) Sp Sq) as Ss. cbv beta in Ss. fold s in Ss. fold s' in Ss.
  set (c := fun x => / 2 * p x + / 2 * q x). set (c' := fun x => / 2 * p' x + / 2 * q' x).
  pose proof (solution_comb (fun _ => 0) two_sectors 0 1 E p p' q q' (/ 2) (/ 2) Sp Sq) as Sc. cbv beta in Sc. fold c in Sc. fold c' in Sc.
  assert (sol0 E 0 1 two_sectors s' (fun x => - E * s x)) as Sd.
  { destruct Ss as [Ss1 Ss2]. split.
    - intros x Hx. destruct (Ss1 x Hx) as [A1 A2]. split; [exact A2|]. apply (continuous_scal_r (- E) s x) in A1. exact A1.
    - intros t x Ht Hx. destruct (Ss2 t x Ht Hx) as [A1 A2]. cbv beta in A2. split; [replace (- E * s x) with ((0 - E) * s x) by ring; exact A2|].
      replace ((0 - E) * s' x) with (- E * s' x) by ring. apply (is_derive_scal s x (- E) (s' x)). exact A1. }
  assert (c 1 = s' 1 /\ c' 1 = - E * s 1) as [Cs Cs'].
  { apply (fp_unique E c c' s' (fun x => - E * s x) Sc Sd); unfold c, c', s, s'; rewrite ?P0, ?P1, ?Q0, ?Q1; lra. }
  assert (s 1 = S /\ c 1 = C) as [Es Ec] by (unfold s, c, S, C; lra). rewrite Es in Cs'. unfold c', s' in Cs, Cs'. rewrite Ec in Cs.
  assert (p 1 = C + S) as P2 by (unfold C, S; lra). assert (q 1 = C - S) as Q2 by (unfold C, S; lra).
  assert (p' 1 = C - E * S) as P3 by lra. assert (q' 1 = - C - E * S) as Q3 by lra.
  assert (nontrivial s s' 0 1) as Ns. { apply (nontrivial_at (fun _ => 0) two_sectors 0 1 0 fp_pt fp_ord fp_bound ltac:(lra) E _ _ 0 Ss ltac:(lra)). right. unfold s'. rewrite P1, Q1. lra. }
  assert (s 0 = 0) as S0 by (unfold s; lra). assert (s' 0 = 1) as S1 by (unfold s'; lra).
  exists (f 1), (g 1), C, S. split; [rewrite <- Fl; exists p, p', f; auto|]. split; [rewrite <- Gl; exists q, q', g; auto|].
  split; [unfold rot_err; rewrite EE; pose proof (basis_det (fun _ => 0) two_sectors 0 1 fp_pt fp_ord ltac:(lra) E p p' q q' Sp Sq P0 P1 Q0 Q1) as W; rewrite P2, Q2, P3, Q3 in *; lra|].
  split; [|split; [|split; [|split; [|split; [|split]]]]].
  - intro HE. destruct (turned_from (fun _ => 0) two_sectors 0 1 ltac:(lra) E s s' Ss Ns) as (a & b & h & T & A & Ea & Eb).
    assert (multiple_of_pi (h 0)) as [z Ez]. { rewrite <- (Rminus_0_r (h 0)). apply (angles_pi (s 0) (s' 0)); [right; lra| |rewrite S0, sin_0; ring]. pose proof (proj2 A 0 ltac:(lra)) as Q. cbv beta in Q. lra. }
    pose proof (turned_low (fun _ => 0) two_sectors 0 1 fp_pt fp_ord ltac:(lra) E a b z T ltac:(lra)) as L1.
    pose proof (turned_less two_sectors 0 1 fp_pt fp_ord ltac:(lra) (fun _ => 0) 1 a b E ltac:(lia)) as L2. cbv zeta in L2. change (INR 1) with 1 in L2. specialize (L2 ltac:(intros; replace (1 * PI / (1 - 0)) with PI by field; lra) T).
    destruct (ang_polar 1 s s' 0 1 h ltac:(lra) (proj1 Ss) Ns A) as [r P]. destruct (P 0 ltac:(lra)) as (_ & Z0 & Z1). destruct (P 1 ltac:(lra)) as (Hc & Z2 & Z3).
    rewrite Rmult_1_l in Z2. rewrite <- Es, Z2. rewrite S1 in Z1. rewrite Ez in Z1. replace (IZR z * PI) with (0 + IZR z * PI) in Z1 by ring. destruct (psign_shift z 0) as [_ Q]. rewrite Q, cos_0 in Z1.
    destruct (psign_shift z (h 1 - IZR z * PI)) as [Q' _]. replace (h 1 - IZR z * PI + IZR z * PI) with (h 1) in Q' by ring. rewrite Q'.
    assert (0 < sin (h 1 - IZR z * PI)) as Sn by (apply sin_gt_0; lra).
    assert (0 < r 1 * psign z) as Pp. { assert (r 0 = psign z) as R0. { transitivity (r 0 * (psign z * psign z)); [rewrite psign_sq; ring|]. transitivity (r 0 * (psign z * 1) * psign z); [ring|]. rewrite <- Z1. ring. } rewrite R0 in Hc. lra. }
    replace (r 1 * (psign z * sin (h 1 - IZR z * PI))) with ((r 1 * psign z) * sin (h 1 - IZR z * PI)) by ring. apply Rmult_lt_0_compat; assumption.
  - destruct (polar_ends (fun _ => 0) two_sectors 0 1 ltac:(lra) E q q' g Sq Nq Ag) as (k & Pk & K1 & K2). exists k. split; [exact Pk|]. rewrite Q0, Q1, Q2, Q3, Gl in K1, K2. lra.
  - intros y y' Sy Y0 Y1. rewrite <- Ec. apply (fp_unique E y y' c c' Sy Sc); unfold c, c'; lra.
  - intros y y' Sy Y0 Y1. rewrite <- Es. apply (fp_unique E y y' s s' Sy Ss); lra.
  - intro k. unfold rot_tmax. rewrite Ex, <- B1, <- B2. rewrite <- F1, <- G1. unfold Rmax. destruct (Rle_dec _ _); lra.
  - unfold rot_tmin. rewrite Em. intro L. rewrite <- B1. specialize (F2 0%Z). rewrite Rmult_0_l in F2. apply F2. eapply Rlt_le_trans; [exact L|apply Rmin_l].
  - unfold rot_tmin, rot_tmax. rewrite Em, Ex. eapply Rle_trans; [apply Rmin_l|apply Rmax_l].
Qed.

Lemma turn0_exp : turn0 (-1) (PI / 4) (PI / 4).
Proof.
  exists exp, exp, (fun _ => PI / 4). split; [|split; [|split; [|split; reflexivity]]].
  - split; [intros x _; split; apply (ex_derive_continuous exp); eexists; apply is_derive_exp|].
    intros s x _ _. split; [apply is_derive_exp|]. replace ((0 - -1) * exp x) with (exp x) by ring. apply is_derive_exp.
  - intros x _. left. pose proof (exp_pos x). lra.
  - split; [intro x; apply continuous_const|]. intros x _. rewrite cos_PI4, sin_PI4. ring.
Qed.
Lemma turn0_nexp : turn0 (-1) (3 * (PI / 4)) (3 * (PI / 4)).
Proof.
  assert (forall x, is_derive (fun x => exp (- x)) x (- exp (- x))) as D1 by (intro x; auto_derive; [exact I|ring]).
  assert (forall x, is_derive (fun x => - exp (- x)) x (exp (- x))) as D2 by (intro x; auto_derive; [exact I|ring]).
  exists (fun x => exp (- x)), (fun x => - exp (- x)), (fun _ => 3 * (PI / 4)). split; [|split; [|split; [|split; reflexivity]]].
  - split; [intros x _; split; [apply (ex_derive_continuous (fun x => exp (- x))); eexists; apply D1|apply (ex_derive_continuous (fun x => - exp (- x))); eexists; apply D2]|].
    intros s x _ _. split; [apply D1|]. replace ((0 - -1) * exp (- x)) with (exp (- x)) by ring. apply D2.
  - intros x _. left. pose proof (exp_pos (- x)). lra.
  - split; [intro x; apply continuous_const|]. intros x _. rewrite cos_3PI4', sin_3PI4'. ring.
Qed.
Lemma rot_low : forall E, E <= -1 -> rot_tmin E <= 0 /\ rot_tmax E < 1.
Proof.
  intros E HE. pose proof PIpos as HP. destruct (rot_data E) as (fh & gh & C & S & Tf & Tg & _ & _ & _ & _ & _ & TX & TN & _).
  assert (fh <= PI / 4) as L1. { destruct HE as [HE|HE]; [left; apply (turned_energy (fun _ => 0) two_sectors 0 1 fp_pt fp_ord ltac:(lra) E (-1) _ _ _ HE Tf turn0_exp)|right; rewrite HE in Tf; apply (turned_unique (fun _ => 0) two_sectors 0 1 0 fp_pt fp_ord fp_bound ltac:(lra) ltac:(lra) (-1) _ _ _ Tf turn0_exp)]. }
  assert (gh <= 3 * (PI / 4)) as L2. { destruct HE as [HE|HE]; [left; apply (turned_energy (fun _ => 0) two_sectors 0 1 fp_pt fp_ord ltac:(lra) E (-1) _ _ _ HE Tg turn0_nexp)|right; rewrite HE in Tg; apply (turned_unique (fun _ => 0) two_sectors 0 1 0 fp_pt fp_ord fp_bound ltac:(lra) ltac:(lra) (-1) _ _ _ Tg turn0_nexp)]. }
  split.
  - destruct (Rle_lt_dec (rot_tmin E) 0) as [|L]; [assumption|]. apply TN in L. lra.
  - destruct (Rlt_le_dec (rot_tmax E) 1) as [|L]; [assumption|]. apply (TX 1%Z) in L. lra.
Qed.
Lemma rot_tmax_mono : forall k E E', IZR k <= rot_tmax E -> E <= E' -> IZR k <= rot_tmax E'.
Proof.
  intros k E E' H [L| <-]; [|exact H]. destruct (rot_data E) as (fh & gh & C & S & Tf & Tg & _ & _ & _ & _ & _ & TX & _). destruct (rot_data E') as (fh' & gh' & C' & S' & Tf' & Tg' & _ & _ & _ & _ & _ & TX' & _).
  apply TX'. apply TX in H.
  pose proof (turned_energy (fun _ => 0) two_sectors 0 1 fp_pt fp_ord ltac:(lra) E E' _ _ _ L Tf Tf'). pose proof (turned_energy (fun _ => 0) two_sectors 0 1 fp_pt fp_ord ltac:(lra) E E' _ _ _ L Tg Tg').
  destruct H; [left|right]; lra.
Qed.
Lemma rot_high : forall N : Z, exists X, forall E, X <= E -> IZR N + 2 <= rot_tmax E.
Proof.
  intro N. pose proof PIpos as HP. set (k := Datatypes.S (Z.to_nat (N + 3))). exists (INR k * PI / (1 - 0) * (INR k * PI / (1 - 0)) + 1). intros E HE.
  destruct (rot_data E) as (fh & gh & C & S & Tf & Tg & _ & _ & _ & _ & _ & TX & _).
  pose proof (turned_more two_sectors 0 1 fp_pt fp_ord ltac:(lra) (fun _ => 0) k (3 * (PI / 4)) gh E ltac:(unfold k; lia)) as L. cbv zeta in L. specialize (L ltac:(intros; lra) Tg).
  rewrite <- plus_IZR. apply TX. right. assert (IZR (N + 2) <= INR k) as LN by (rewrite INR_IZR_INZ; apply IZR_le; unfold k; lia).
  assert (IZR (N + 2) * PI <= INR k * PI) by (apply Rmult_le_compat_r; lra). lra.
Qed.
(** below pi^2 the larger difference is below 3 *)
Lemma rot_three : forall E, E <= PI * PI -> rot_tmax E < 3.
Proof.
  intros E HE. pose proof PIpos as HP. destruct (Rlt_le_dec (rot_tmax E) 3) as [|L]; [assumption|exfalso]. apply (rot_tmax_mono 3 E (PI * PI + 1)) in L; [|lra]. 
  destruct (rot_data (PI * PI + 1)) as (fh & gh & C & S & Tf & Tg & _ & _ & _ & _ & _ & TX & _). apply TX in L. pose proof PI2_3_2 as P3. pose proof PI_4 as P4.
  assert (forall a b, turn0 (PI * PI + 1) a b -> b - a < INR 2 * PI) as LL.
  { intros a b T. apply (turned_less two_sectors 0 1 fp_pt fp_ord ltac:(lra) (fun _ => 0) 2 a b (PI * PI + 1) ltac:(lia)); [|exact T]. intros. change (INR 2) with (1 + 1). replace ((1 + 1) * PI / (1 - 0)) with (2 * PI) by field. nra. }
  pose proof (LL _ _ Tf) as L1. pose proof (LL _ _ Tg) as L2. change (INR 2) with (1 + 1) in *. lra.
Qed.
(** the determinant is negative on [-1, pi^2) *)
Lemma rot_neg : forall E, -1 <= E < PI * PI -> rot_err E < 0.
Proof.
  intros E HE. destruct (rot_data E) as (fh & gh & C & S & _ & _ & EE & PS & _). specialize (PS (proj2 HE)). rewrite EE. assert (0 <= (1 + E) * S) by (apply Rmult_le_pos; lra). lra.
Qed.
Lemma rot_eigen_zero : forall E, rot_err E = 0 <-> rot_eigen E.
Proof. intro E. apply (C73_zero (calculateT eta_exact) 0 two_sectors 0 fp_sector 0 1 (fun _ => 0) rot fp_pt fp_m fp_sm rot_det E (fp_exact E)). Qed.
(** g has turned by between 0 and pi, for energies between -1 and pi^2 *)
Lemma rot_turn : forall E gh, -1 < E < PI * PI -> turn0 E (3 * (PI / 4)) gh -> 0 < gh - 3 * (PI / 4) < PI.
Proof.
  intros E gh HE Tg. split.
  - pose proof (turned_energy (fun _ => 0) two_sectors 0 1 fp_pt fp_ord ltac:(lra) (-1) E _ _ _ ltac:(lra) turn0_nexp Tg). lra.
  - pose proof (turned_less two_sectors 0 1 fp_pt fp_ord ltac:(lra) (fun _ => 0) 1 (3 * (PI / 4)) gh E ltac:(lia)) as L. cbv zeta in L. change (INR 1) with 1 in L. specialize (L ltac:(intros; replace (1 * PI / (1 - 0)) with PI by field; lra) Tg). lra.
Qed.
Lemma rot_zero : rot_tmax 0 < 1.
Proof.
  pose proof PIpos as HP. pose proof pi_sq as PS. destruct (Rlt_le_dec (rot_tmax 0) 1) as [|L]; [assumption|exfalso]. destruct (rot_data 0) as (fh & gh & C & S & Tf & Tg & _ & _ & (k & Pk & K1 & K2) & CC & SS & TX & _). apply (TX 1%Z) in L.
  pose proof (rot_turn 0 gh ltac:(lra) Tg) as I.
  pose proof (turned_less two_sectors 0 1 fp_pt fp_ord ltac:(lra) (fun _ => 0) 1 (PI / 4) fh 0 ltac:(lia)) as L2. cbv zeta in L2. change (INR 1) with 1 in L2. specialize (L2 ltac:(intros; replace (1 * PI / (1 - 0)) with PI by field; lra) Tf).
  assert (C = 1) as C1. { rewrite <- (CC (fun _ => 1) (fun _ => 0)); [reflexivity| |reflexivity|reflexivity]. split; [intros; split; apply continuous_const|]. intros s x _ _. split; [apply (is_derive_const 1)|]. replace ((0 - 0) * 1) with 0 by ring. apply (is_derive_const 0). }
  assert (S = 1) as S1. { rewrite <- (SS (fun x => x) (fun _ => 1)); [reflexivity| |reflexivity|reflexivity]. split; [intros; split; [apply continuous_id|apply continuous_const]|]. intros s x _ _. split; [apply (is_derive_id x)|]. replace ((0 - 0) * x) with 0 by ring. apply (is_derive_const 1). }
  assert (0 < cos (gh - 3 * (PI / 4))) as Cp. { apply (Rmult_lt_reg_l k); [exact Pk|]. lra. }
  destruct (Rle_lt_dec (gh - 3 * (PI / 4)) (PI / 2)) as [Q|Q]; [|pose proof (cos_lt_0 (gh - 3 * (PI / 4)) ltac:(lra) ltac:(lra)); lra].
  destruct Q as [Q|Q]; [lra|]. rewrite Q, cos_PI2 in Cp. lra.
Qed.
Lemma rot_one : 1 <= rot_tmax ((PI - 1 / 4) * (PI - 1 / 4)).
Proof.
  pose proof PI2_3_2 as HP. pose proof PI_4 as P4. set (w := PI - 1 / 4). assert (0 < w < PI) as Hw by (unfold w; lra).
  destruct (rot_data (w * w)) as (fh & gh & C & S & Tf & Tg & _ & _ & (k & Pk & K1 & K2) & CC & SS & TX & _). apply (TX 1%Z). right.
  pose proof (rot_turn (w * w) gh ltac:(nra) Tg) as I.
  assert (C = cos w) as C1. { rewrite <- (CC _ _ (free_solution w 1 0 ltac:(lra))); [rewrite Rmult_1_r; field; lra|rewrite Rmult_0_r, cos_0; field; lra|rewrite Rmult_0_r, sin_0; ring]. }
  assert (S = sin w / w) as S1. { rewrite <- (SS _ _ (free_solution w 0 1 ltac:(lra))); [rewrite Rmult_1_r; field; lra|rewrite Rmult_0_r, cos_0, sin_0; field; lra|rewrite Rmult_0_r, sin_0, cos_0; ring]. }
  assert (sin w = sin (1 / 4)) as Sw by (unfold w; apply sin_PI_x). assert (cos w = - cos (1 / 4)) as Cw by (unfold w; rewrite cos_minus, cos_PI, sin_PI; ring).
  assert (0 < sin (1 / 4) < 1 / 4) as Hs by (split; [apply sin_gt_0; lra|apply sin_lt_x; lra]).
  assert (3 / 4 < cos (1 / 4)) as Hc. { assert (0 < cos (1 / 4)) as P by (apply cos_gt_0; lra). pose proof (sin2_cos2 (1 / 4)) as Q. unfold Rsqr in Q. nra. }
  assert (0 < S) as PS by (rewrite S1, Sw; apply Rdiv_lt_0_compat; lra).
  assert (w * w * S = w * sin (1 / 4)) as E1 by (rewrite S1, Sw; field; lra).
  assert (w * sin (1 / 4) < 4 * (1 / 4)) as E2 by (apply Rmult_le_0_lt_compat; lra).
  assert (cos (gh - 3 * (PI / 4)) < 0) as Cp. { assert (k * cos (gh - 3 * (PI / 4)) < 0) as Q by (rewrite <- K2, C1, Cw; lra). destruct (Rlt_le_dec (cos (gh - 3 * (PI / 4))) 0) as [|N]; [assumption|]. assert (0 <= k * cos (gh - 3 * (PI / 4))) by (apply Rmult_le_pos; lra). lra. }
  destruct (Rle_lt_dec (gh - 3 * (PI / 4)) (PI / 2)) as [Q|Q]; [|lra]. pose proof (cos_ge_0 (gh - 3 * (PI / 4)) ltac:(lra) Q). lra.
Qed.
(** an eigenvalue below -1 *)
Lemma rot_ground : exists E0, -4 < E0 < -1 /\ rot_eigen E0.
Proof.
  set (h := fun k => -4 * k + (k * k - 1) * (exp k - exp (- k))).
  assert (forall x, is_derive h x (-4 + ((2 * x) * (exp x - exp (- x)) + (x * x - 1) * (exp x + exp (- x))))) as D by (intro x; unfold h; auto_derive; [exact I|ring]).
  destruct (ivt h 1 2 ltac:(lra)) as (k & Ik & Zk).
  - intros x _. apply continuity_pt_filterlim. apply (ex_derive_continuous h). eexists. apply D.
  - assert (h 1 = -4) as -> by (unfold h; ring).
    assert (4 < exp 2) as E2. { pose proof (exp_ineq1 1 ltac:(lra)) as Q. replace 2 with (1 + 1) by ring. rewrite exp_plus. nra. }
    assert (exp (- (2)) < 1) as E3. { rewrite <- exp_0. apply exp_increasing. lra. }
    assert (0 < h 2) by (unfold h; lra). lra.
  - assert (k <> 1) as N1. { intros ->. unfold h in Zk. lra. }
    assert (k <> 2) as N2. { intros ->. unfold h in Zk. assert (4 < exp 2) as E2. { pose proof (exp_ineq1 1 ltac:(lra)) as Q. replace 2 with (1 + 1) by ring. rewrite exp_plus. nra. } assert (exp (- (2)) < 1) as E3. { rewrite <- exp_0. apply exp_increasing. lra. } lra. }
    assert (1 < k < 2) as I by lra. exists (- (k * k)). split; [nra|]. apply rot_eigen_zero.
    destruct (rot_data (- (k * k))) as (fh & gh & C & S & _ & _ & EE & _ & _ & _ & SS & _). rewrite EE.
    assert (S = (exp k - exp (- k)) / (2 * k)) as ->.
    { set (y := fun x => (exp (k * x) - exp (- (k * x))) / (2 * k)). set (y' := fun x => (exp (k * x) + exp (- (k * x))) / 2).
      assert (forall x, is_derive y x (y' x)) as D1 by (intro x; unfold y, y'; auto_derive; [exact Logic.I|field; lra]).
      assert (forall x, is_derive y' x ((0 - - (k * k)) * y x)) as D2 by (intro x; unfold y, y'; auto_derive; [exact Logic.I|field; lra]).
      rewrite <- (SS y y'); [unfold y; rewrite Rmult_1_r; reflexivity| | |].
      - split; [intros x _; split; [apply (ex_derive_continuous y); eexists; apply D1|apply (ex_derive_continuous y'); eexists; apply D2]|]. intros s x _ _. split; [apply D1|apply D2].
      - unfold y. rewrite Rmult_0_r, Ropp_0, exp_0. field. lra.
      - unfold y'. rewrite Rmult_0_r, Ropp_0, exp_0. field. }
    unfold h in Zk. apply (Rmult_eq_reg_r k); [|lra]. rewrite Rmult_0_l. rewrite <- Zk. field. lra.
Qed.

(** the query for the eigenvalue with index 0 lists an energy that is more than 1/2 away from every eigenvalue, and
    not the lowest one *)
Theorem C73_refuted : exists n0 out E E0,
  (forall fuel, (n0 <= fuel)%nat -> periodic_byIndex rot_err rot_derr rot_tmin rot_tmax fuel (K_antiperiodic rot) 0 1 = Ret out) /\
  In (0%Z, E, false) out /\ (forall E', rot_eigen E' -> 1 / 2 < Rabs (E' - E)) /\
  rot_eigen E0 /\ (forall e, In e out -> E0 < snd (fst e)).
Proof.
  pose proof pi_sq as PS. pose proof PI2_3_2 as HP. pose proof PI_4 as HP4.
  assert (K_antiperiodic rot = false) as Ka. { unfold K_antiperiodic, rot. cbn [m00 m01]. rewrite (proj2 (Rltb_false 0 (-1))) by lra. rewrite (proj2 (Reqb_false (-1) 0)) by lra. reflexivity. }
  rewrite Ka.
  assert (G : settles (fun k => periodic_byIndex rot_err rot_derr rot_tmin rot_tmax k false 0 1) (fun _ => True)).
  { unfold periodic_byIndex. eapply settles_bind.
    { apply (doubling_settles _ (-1) 1); [lra|]. intros E HE. apply Rltb_false. change (rot_tmin E <= 0). apply rot_low. lra. }
    intros eMin _. eapply settles_bind.
    { destruct (rot_high 1) as [X HX]. apply (doubling_settles _ 1 X); [lra|]. intros E HE. apply Rltb_false. change (IZR (1 + 2) <= rot_tmax E). rewrite plus_IZR. apply HX. lra. }
    intros eMax _.
    destruct (C43_total rot_err rot_derr rot_tmin rot_tmax eMin eMax 0 1 eps8) with (anti := false) as (n & out & G).
    - unfold eps8. cbn. lra.
    - exists (-1). intros E HE. destruct (rot_low E HE). lra.
    - apply rot_high.
    - lia.
    - exists n, out. auto. }
  destruct G as (n0 & out & _ & G). destruct rot_ground as (E0 & I0 & R0).
  pose proof (G n0 (le_n n0)) as H. unfold periodic_byIndex in H. change (Z.max (0 - 2) 0) with 0%Z in H.
  assert (forall k, doubling k (fun E => slt (sofZ 0) (rot_tmin E)) (sofZ (-1)) = Ret (-1)) as Dl.
  { intro k. destruct k; cbn [doubling]; (replace (slt _ _) with false; [reflexivity|]); symmetry; apply Rltb_false; apply (rot_low (-1)); lra. }
  rewrite Dl in H. cbn [bind] in H. destruct (doubling _ _ _) as [eMax| | |] eqn:DM; try discriminate. cbn [bind] in H.
  assert (PI * PI < eMax) as LM.
  { assert (forall k x r, doubling k (fun E => slt (rot_tmax E) (sofZ (1 + 2))) x = Ret r -> slt (rot_tmax r) (sofZ (1 + 2)) = false) as DD.
    { induction k as [|k IH]; intros x r; cbn [doubling]; destruct (slt (rot_tmax x) _) eqn:Q; intro Z; try discriminate; try (injection Z as <-; exact Q). apply IH in Z. exact Z. }
    apply DD in DM. apply Rltb_false in DM. change (3 <= rot_tmax eMax) in DM. destruct (Rlt_le_dec (PI * PI) eMax) as [|C]; [assumption|]. apply rot_three in C. lra. }
  destruct (C43_results _ _ _ _ _ _ _ _ _ _ _ _ H) as [FA _].
  unfold eigenpairsHelper in H. cbv zeta in H. change (0 - Z.rem 0 2 + 0)%Z with 0%Z in H. change (0 =? 0)%Z with true in H. cbv iota in H.
  destruct (stepping _ _ _ _ eMax) as [highest| | |] eqn:S0; try discriminate. cbn [bind] in H.
  apply stepping_up in S0; [|cbn; lra]. destruct S0 as [C0 L0]. apply Rltb_false in C0. unfold findHigh in C0. change (0 <= rot_tmax highest - 2 - 1) in C0.
  assert (forall fuel', stepping fuel' ssub (fun E => slt (sofZ 0) (findHigh rot_tmax 0 E)) (sofZ 1) (-1) = Ret (-1)) as St2.
  { intro fuel'. destruct fuel'; cbn [stepping]; (replace (slt _ _) with false; [reflexivity|]); symmetry; apply Rltb_false; unfold findHigh; change (rot_tmax (-1) - 0 - 1 <= 0); pose proof (rot_low (-1) ltac:(lra)); lra. }
  rewrite St2 in H. cbn [bind] in H.
  destruct (binarySearch _ (-1) highest _ _ _) as [high| | |] eqn:B1; try discriminate. cbn [bind] in H.
  destruct (binarySearch _ (-1) high _ _ _) as [E| | |] eqn:B2; try discriminate. cbn [bind] in H.
  destruct (pairs_loop _ _ _ _ _ _ _ _ _ _ _ _ _ _) as [rest| | |] eqn:Q; try discriminate. cbn [bind] in H. injection H as Hout.
  set (eps := 1 / 100000000). change (eps8 : R) with eps in *. assert (0 < eps <= 1) as He by (unfold eps; lra).
  destruct (bs_final _ eps (-1) highest _ _ _ (proj1 He) ltac:(lra) B1) as (a' & b' & Eh & W' & Ia' & Ib' & Ga' & Gb').
  pose proof (rot_low (-1) ltac:(lra)) as [_ T1].
  unfold findHigh in Ga', Gb'. change (a' = -1 \/ 0 < (rot_tmax (-1) - 0 - 1) * (rot_tmax a' - 0 - 1)) in Ga'. change (b' = highest \/ (rot_tmax (-1) - 0 - 1) * (rot_tmax b' - 0 - 1) <= 0) in Gb'.
  assert (rot_tmax a' < 1) as Ta by (destruct Ga' as [-> |Z]; [exact T1|nra]).
  assert (1 <= rot_tmax b') as Tb by (destruct Gb' as [-> |Z]; [lra|nra]).
  pose proof rot_one as R1. set (w2 := (PI - 1 / 4) * (PI - 1 / 4)) in *. assert (w2 < PI * PI - 1) as Hw2 by (unfold w2; nra).
  assert (a' < w2) as La. { destruct (Rlt_le_dec a' w2) as [|C]; [assumption|]. pose proof (rot_tmax_mono 1 w2 a' R1 C). lra. }
  assert (0 < b') as Lb. { destruct (Rlt_le_dec 0 b') as [|C]; [assumption|]. pose proof (rot_tmax_mono 1 b' 0 Tb C). pose proof rot_zero. lra. }
  assert (forall x y, -1 <= x -> x <= 16 -> y - x <= eps * Rmax 1 (Rabs x) -> y - x <= 1 / 1000000) as WW.
  { intros x y X1 X2 HW. assert (Rmax 1 (Rabs x) <= 16) as M by (apply Rmax_lub; [lra|apply Rabs_le; lra]). assert (eps * Rmax 1 (Rabs x) <= eps * 16) by (apply Rmult_le_compat_l; lra). unfold eps in *. lra. }
  pose proof (WW a' b' ltac:(lra) ltac:(lra) W') as W2.
  destruct (bs_final _ eps (-1) high _ _ _ (proj1 He) ltac:(lra) B2) as (a & b0 & Ee & W & Ia & Ib & Ga & Gb).
  pose proof (rot_neg (-1) ltac:(lra)) as N5.
  assert (b0 = high) as Eb0. { destruct Gb as [|Gb]; [assumption|exfalso]. pose proof (rot_neg b0 ltac:(lra)) as Nb. pose proof (Rmult_lt_0_compat (- rot_err (-1)) (- rot_err b0) ltac:(lra) ltac:(lra)). lra. }
  pose proof (WW a b0 ltac:(lra) ltac:(lra) W) as W3.
  assert (-1 / 100 < E < PI * PI - 1 + 1 / 100) as IE by lra.
  exists n0, out, E, E0. split; [exact G|]. split; [|split; [|split; [exact R0|]]].
  - rewrite <- Hout. apply in_or_app. left. unfold addToResult. replace ((0 <? 0)%Z || (1 <=? 0)%Z || slt E (-1) || sle eMax E) with false; [left; reflexivity|].
    symmetry. rewrite !orb_false_iff. split; [split; [split; reflexivity|apply Rltb_false; lra]|apply Rleb_false; lra].
  - intros E' R'. apply rot_eigen_zero in R'. destruct (Rlt_le_dec E' (-1)) as [L|L]; [rewrite Rabs_left; lra|]. destruct (Rlt_le_dec E' (PI * PI)) as [L'|L']; [pose proof (rot_neg E' ltac:(lra)); lra|]. rewrite Rabs_right; lra.
  - intros e Hin. rewrite Forall_forall in FA. specialize (FA e Hin). unfold entry_ok in FA. destruct FA as (_ & _ & A & _). apply Rltb_false in A. change (sofZ (-1) : R) with (-1) in A. lra.
Qed.
(** the hypotheses of C73_window_partial hold for a matrix that is not a multiple of the identity, and the energies it speaks
    about exist: K = (2, -1; -1, 1) and the free particle *)
Example C73_case : let K := mkM 2 (-1) (-1) 1 in m00 K * m11 K - m01 K * m10 K = 1 /\ (m01 K <= 0 < m00 K + m01 K) /\ K_antiperiodic K = false /\
  forall E, hill_exact (calculateT eta_exact) (fun _ => 0) 0 1 two_sectors (smax fp_sector) E.
Proof.
  cbn [m00 m01 m10 m11]. split; [lra|]. split; [lra|]. split; [|exact fp_exact]. unfold K_antiperiodic. cbn [m00 m01]. rewrite (proj2 (Rltb_false 0 (-1))) by lra. rewrite (proj2 (Reqb_false (-1) 0)) by lra. reflexivity.
Qed.
Print Assumptions C73_zero.
Print Assumptions C73_window_partial.
Print Assumptions C73_refuted.
