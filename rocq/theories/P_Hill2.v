(** Periodic and antiperiodic eigenvalues in terms of turns over one period and of the trace of the period map. *)
From Coq Require Import Reals ZArith Lra Lia Bool.
From Coquelicot Require Import Coquelicot.
From Coq Require Import List.
From Verif Require Import Base M_Sectors S_Sectors P_Lookup M_Core S_Core P_Core P_Core2 P_Prufer S_Formulas P_Terms2 S_Accuracy S_Zeros P_Lift P_Lift2 P_Cross P_Global2 P_Global3 P_Global5 P_Step P_Step2 P_Count P_Count2 P_Sturm P_Sturm2 T_Zeros S_Search T_Search T_Sturm M_Periodic S_Hill P_Hill.
Import ListNotations.
Open Scope R_scope.

Definition psign (k : Z) : R := if Z.even k then 1 else -1.
Lemma psign_sq : forall k, psign k * psign k = 1.
Proof. intro k. unfold psign. destruct (Z.even k); ring. Qed.
Lemma psign_shift : forall k t, sin (t + IZR k * PI) = psign k * sin t /\ cos (t + IZR k * PI) = psign k * cos t.
Proof.
  assert (forall m t, sin (t + IZR (2 * m) * PI) = sin t /\ cos (t + IZR (2 * m) * PI) = cos t) as K.
  { intros m t. destruct (shift_sign m) as (e & He & S). replace (t + IZR (2 * m) * PI) with ((t + IZR m * PI) + IZR m * PI) by (rewrite mult_IZR; ring).
    destruct (S (t + IZR m * PI)) as [S1 S2]. destruct (S t) as [S3 S4]. rewrite S1, S2, S3, S4. split; [transitivity (e * e * sin t)|transitivity (e * e * cos t)]; try ring; rewrite He; ring. }
  intros k t. unfold psign. destruct (Z.even k) eqn:Q.
  - apply Z.even_spec in Q as [m ->]. destruct (K m t) as [-> ->]. split; ring.
  - assert (Z.odd k = true) as O by (rewrite <- Z.negb_even, Q; reflexivity). apply Z.odd_spec in O as [m ->].
    replace (t + IZR (2 * m + 1) * PI) with ((t + PI) + IZR (2 * m) * PI) by (rewrite plus_IZR; ring). destruct (K m (t + PI)) as [-> ->]. rewrite neg_sin, neg_cos. split; ring.
Qed.
Lemma sin_sign : forall t n, (IZR n - 1) * PI < t < (IZR n + 1) * PI -> (IZR n * PI < t <-> 0 < psign n * sin t) /\ (t < IZR n * PI <-> psign n * sin t < 0).
Proof.
  intros t n H. pose proof PIpos as HP. destruct (psign_shift n (t - IZR n * PI)) as [S _]. replace (t - IZR n * PI + IZR n * PI) with t in S by ring.
  assert (psign n * sin t = sin (t - IZR n * PI)) as ->. { rewrite S. rewrite <- Rmult_assoc, psign_sq. ring. }
  set (d := t - IZR n * PI) in *. assert (- PI < d < PI) as Hd by (unfold d; lra).
  assert (0 < d -> 0 < sin d) as P by (intro; apply sin_gt_0; lra).
  assert (d < 0 -> sin d < 0) as N. { intro. assert (0 < sin (- d)) as Q by (apply sin_gt_0; lra). rewrite sin_neg in Q. lra. }
  assert (d = 0 -> sin d = 0) as Z by (intros ->; apply sin_0).
  split; split; intro L; destruct (Rtotal_order d 0) as [T|[T|T]]; try (specialize (N T)); try (specialize (Z T)); try (specialize (P T)); unfold d in *; lra.
Qed.

Lemma kernel2 : forall a b c d x y, x <> 0 \/ y <> 0 -> a * x + b * y = 0 -> c * x + d * y = 0 -> a * d - b * c = 0.
Proof.
  intros a b c d x y N H1 H2.
  assert (x * (a * d - b * c) = 0) as X. { transitivity (d * (a * x + b * y) - b * (c * x + d * y)); [ring|rewrite H1, H2; ring]. }
  assert (y * (a * d - b * c) = 0) as Y. { transitivity (a * (c * x + d * y) - c * (a * x + b * y)); [ring|rewrite H1, H2; ring]. }
  apply Rmult_integral in X, Y. destruct N, X, Y; try assumption; contradiction.
Qed.
Lemma kernel2_ex : forall a b c d, a * d - b * c = 0 -> exists x y, (x <> 0 \/ y <> 0) /\ a * x + b * y = 0 /\ c * x + d * y = 0.
Proof.
  intros a b c d D. destruct (Req_dec a 0) as [A|A]; [destruct (Req_dec b 0) as [B|B]|].
  - destruct (Req_dec c 0) as [C|C]; [exists 1, 0; subst; repeat split; try lra; left; lra|]. exists (- d / c), 1. subst. split; [right; lra|]. split; [ring|field; exact C].
  - exists b, (- a). split; [left; exact B|]. split; [ring|lra].
  - exists (- b / a), 1. split; [right; lra|]. split; [field; exact A|]. apply (Rmult_eq_reg_l a); [|exact A]. transitivity (a * d - b * c); [field; exact A|lra].
Qed.
Lemma quad_disc : forall al be ga A B A' B', A <> 0 \/ B <> 0 -> 0 <= al * (A * A) + be * (A * B) + ga * (B * B) ->
  al * (A' * A') + be * (A' * B') + ga * (B' * B') < 0 -> 0 <= be * be - 4 * al * ga.
Proof.
  intros al be ga A B A' B' N H H'. set (D := be * be - 4 * al * ga). destruct (Rle_lt_dec 0 D) as [L|L]; [exact L|exfalso].
  assert (al <> 0) as Na. { intro Z. unfold D in L. rewrite Z in L. nra. }
  assert (forall x y, 4 * al * (al * (x * x) + be * (x * y) + ga * (y * y)) = (2 * al * x + be * y) * (2 * al * x + be * y) + (- D) * (y * y)) as Id by (intros; unfold D; ring).
  assert (forall x y, 0 <= 4 * al * (al * (x * x) + be * (x * y) + ga * (y * y))) as Ps. { intros x y. rewrite Id. pose proof (Rle_0_sqr (2 * al * x + be * y)) as S1. pose proof (Rle_0_sqr y) as S2. unfold Rsqr in *. nra. }
  assert (al < 0) as Al. { destruct (Rlt_le_dec al 0) as [|G]; [assumption|]. assert (0 < al) by lra. specialize (Ps A' B'). nra. }
  assert (4 * al * (al * (A * A) + be * (A * B) + ga * (B * B)) <= 0) as Z by nra. rewrite Id in Z.
  pose proof (Rle_0_sqr (2 * al * A + be * B)) as S1. pose proof (Rle_0_sqr B) as S2. unfold Rsqr in *.
  assert (B = 0) as B0. { destruct (Req_dec B 0) as [|NB]; [assumption|]. assert (0 < B * B) by nra. nra. }
  rewrite B0 in *. assert (2 * al * A = 0) as A0 by nra. destruct N as [N|N]; [|lra]. apply Rmult_integral in A0 as [A0|A0]; lra.
Qed.

Section Hill2.
Variables (V : R -> R) (l : list sec) (lo hi M : R).
Hypothesis PT : partition lo hi l.
Hypothesis Ho : forall s, In s l -> smin s < smax s.
Hypothesis HM : forall s x, In s l -> smin s < x < smax s -> Rabs (V x) <= M.
Hypothesis HM0 : 0 <= M.
Hypothesis Hlh : lo < hi.
Notation turned := (turned V l lo hi).

(** area and dot product of the start and end vectors *)
Lemma polar_ends : forall E z z' f, solution V E lo hi l z z' -> nontrivial z z' lo hi -> ang 1 z z' lo hi f ->
  exists k, 0 < k /\ z lo * z' hi - z' lo * z hi = - k * sin (f hi - f lo) /\ z lo * z hi + z' lo * z' hi = k * cos (f hi - f lo).
Proof using Hlh.
  intros E z z' f S N A. destruct (ang_polar 1 z z' lo hi f ltac:(lra) (proj1 S) N A) as [c P].
  destruct (P lo ltac:(lra)) as (_ & A1 & A2). destruct (P hi ltac:(lra)) as (Hk & B1 & B2). exists (c lo * c hi). split; [exact Hk|].
  rewrite Rmult_1_l in A1, B1. rewrite A1, A2, B1, B2, sin_minus, cos_minus. split; ring.
Qed.

Lemma turned_from : forall E z z', solution V E lo hi l z z' -> nontrivial z z' lo hi -> exists a b f, turned E a b /\ ang 1 z z' lo hi f /\ f lo = a /\ f hi = b.
Proof using Hlh.
  intros E z z' S N. destruct (ang_exists 1 z z' lo hi (atan_safe (1 * z lo) (z' lo)) ltac:(lra) ltac:(lra)) as (f & A & F); [apply S|exact N|apply atan_safe_angle|].
  exists (f lo), (f hi), f. split; [exists z, z', f; auto|auto].
Qed.

(** an eigendirection of the period map with eigenvalue lam makes a whole number of half turns, even or odd as lam is positive or negative *)
Lemma eigen_turn : forall E z z' lam, solution V E lo hi l z z' -> nontrivial z z' lo hi -> lam <> 0 -> z hi = lam * z lo -> z' hi = lam * z' lo ->
  exists a k zs, turned E a (a + IZR k * PI) /\ 0 < psign k * lam /\ lists_zeros z (fun x => lo < x <= hi) zs /\ k = Z.of_nat (length zs).
Proof using PT Ho Hlh.
  intros E z z' lam S N Hl H0 H1. destruct (turned_from E z z' S N) as (a & b & f & T & A & F1 & F2). subst a b.
  assert (multiple_of_pi (f hi - f lo)) as [k Ek].
  { apply (angles_pi (z lo) (z' lo)); [apply N; lra| |pose proof (proj2 A lo ltac:(lra)) as Q; cbv beta in Q; lra].
    pose proof (proj2 A hi ltac:(lra)) as Q. cbv beta in Q. rewrite H0, H1 in Q. apply (Rmult_eq_reg_l lam); [lra|exact Hl]. }
  destruct (global_count l lo hi PT V E z z' S N Ho 1 f lo hi ltac:(lra) A ltac:(lra) ltac:(lra) ltac:(lra)) as (zs & LZ & _).
  exists (f lo), k, zs. assert (f hi = f lo + IZR k * PI) as EF by lra. split; [rewrite <- EF; exact T|]. split.
  - destruct (polar_ends E z z' f S N A) as (c & Hc & _ & Q). rewrite H0, H1, Ek in Q. destruct (psign_shift k 0) as [_ C]. rewrite Rplus_0_l, cos_0 in C. rewrite C in Q.
    assert (0 < z lo * z lo + z' lo * z' lo) as Hn by (destruct (N lo ltac:(lra)); nra).
    assert (lam * (z lo * z lo + z' lo * z' lo) = c * psign k) as Q2 by lra.
    apply (Rmult_lt_reg_r (z lo * z lo + z' lo * z' lo)); [exact Hn|]. rewrite Rmult_0_l, Rmult_assoc, Q2.
    replace (psign k * (c * psign k)) with (c * (psign k * psign k)) by ring. rewrite psign_sq. lra.
  - split; [exact LZ|]. apply (turned_count V l lo hi PT Ho Hlh E z z' f S N A k zs EF LZ).
Qed.
Lemma eigen_turn_rev : forall E a k, turned E a (a + IZR k * PI) -> exists z z' lam, solution V E lo hi l z z' /\ nontrivial z z' lo hi /\ 0 < psign k * lam /\ z hi = lam * z lo /\ z' hi = lam * z' lo.
Proof using Hlh.
  intros E a k (z & z' & f & S & N & A & F1 & F2). destruct (ang_polar 1 z z' lo hi f ltac:(lra) (proj1 S) N A) as [c P].
  destruct (P lo ltac:(lra)) as (Hk0 & A1 & A2). destruct (P hi ltac:(lra)) as (Hk & B1 & B2). rewrite Rmult_1_l in A1, B1.
  rewrite F2 in B1, B2. destruct (psign_shift k a) as [S1 C1]. rewrite S1 in B1. rewrite C1 in B2. rewrite F1 in A1, A2.
  assert (c lo <> 0) as Nc by (intro Z; rewrite Z in Hk; lra).
  exists z, z', (c hi / c lo * psign k). split; [exact S|]. split; [exact N|]. split; [|split].
  - replace (psign k * (c hi / c lo * psign k)) with (c hi / c lo * (psign k * psign k)) by (field; exact Nc). rewrite psign_sq, Rmult_1_r.
    replace (c hi / c lo) with (c lo * c hi / (c lo * c lo)) by (field; exact Nc). apply Rdiv_lt_0_compat; [exact Hk|]. nra.
  - rewrite A1, B1. field. exact Nc.
  - rewrite A2, B2. field. exact Nc.
Qed.

Lemma hill_turned : forall sg n E, sg * sg = 1 -> hill_eigen V lo hi l sg n E -> psign n = sg /\ (0 <= n)%Z /\ exists a, turned E a (a + IZR n * PI).
Proof using PT Ho Hlh.
  intros sg n E Hs (z & z' & zs & S & N & H0 & H1 & LZ & En).
  destruct (eigen_turn E z z' sg S N ltac:(intro Z; rewrite Z in Hs; lra) H0 H1) as (a & k & ys & T & P & LY & Ek).
  assert (length ys = length zs) as EL.
  { destruct LZ as [N1 Q1], LY as [N2 Q2]. apply Nat.le_antisymm; apply NoDup_incl_length; auto; intros x Hx; [apply Q1, Q2, Hx|apply Q2, Q1, Hx]. }
  assert (k = n) as -> by congruence. split; [|split; [lia|exists a; exact T]].
  pose proof (psign_sq n) as Q. assert ((psign n - sg) * (psign n + sg) = 0) as Q2 by (transitivity (psign n * psign n - sg * sg); [ring|rewrite Q, Hs; ring]).
  apply Rmult_integral in Q2 as [Q2|Q2]; [lra|]. exfalso. assert (psign n = - sg) as Q3 by lra. rewrite Q3 in P. nra.
Qed.

(** at an eigenvalue of index n, every solution turns by more than (n - 1) pi and less than (n + 1) pi *)
Lemma hill_window : forall sg n E, sg * sg = 1 -> hill_eigen V lo hi l sg n E -> forall a b, turned E a b -> (IZR n - 1) * PI < b - a < (IZR n + 1) * PI.
Proof using PT Ho HM HM0 Hlh.
  intros sg n E Hs H a b T. destruct (hill_turned sg n E Hs H) as (_ & _ & a0 & T0).
  pose proof (turned_close V l lo hi M PT Ho HM HM0 Hlh E a b _ _ T T0). pose proof (turned_close V l lo hi M PT Ho HM HM0 Hlh E _ _ a b T0 T). lra.
Qed.

(** at an eigenvalue of index n, all solutions turn by at most n pi, or all by at least n pi *)
Lemma hill_onesided : forall sg n E, sg * sg = 1 -> hill_eigen V lo hi l sg n E ->
  (forall a b, turned E a b -> b - a <= IZR n * PI) \/ (forall a b, turned E a b -> IZR n * PI <= b - a).
Proof using PT Ho HM HM0 Hlh.
  intros sg n E Hs H.
  assert (forall a b a' b', turned E a b -> turned E a' b' -> IZR n * PI < b - a -> b' - a' < IZR n * PI -> False) as K.
  { intros a b a' b' T T' L L'. pose proof (hill_window sg n E Hs H a b T) as W. pose proof (hill_window sg n E Hs H a' b' T') as W'.
    apply (sin_sign _ _ W) in L. apply (sin_sign _ _ W') in L'.
    destruct T as (z1 & z1' & f1 & S1 & N1 & A1 & F1 & G1). destruct T' as (z2 & z2' & f2 & S2 & N2 & A2 & F2 & G2).
    destruct (polar_ends E z1 z1' f1 S1 N1 A1) as (k1 & Hk1 & Q1 & _). destruct (polar_ends E z2 z2' f2 S2 N2 A2) as (k2 & Hk2 & Q2 & _). rewrite F1, G1 in Q1. rewrite F2, G2 in Q2.
    pose proof (psign_sq n) as Pn. set (e := psign n) in *.
    destruct H as (y & y' & zs & Sy & Ny & Y0 & Y1 & _).
    pose proof (wronskian V l lo hi PT Ho E z1 z1' y y' S1 Sy lo hi ltac:(lra) ltac:(lra)) as W1.
    pose proof (wronskian V l lo hi PT Ho E z2 z2' y y' S2 Sy lo hi ltac:(lra) ltac:(lra)) as W2.
    pose proof (wronskian V l lo hi PT Ho E z2 z2' z1 z1' S2 S1 lo hi ltac:(lra) ltac:(lra)) as W3.
    rewrite Y0, Y1 in W1, W2.
    set (p := z1 lo * y' lo - z1' lo * y lo) in *. set (q := z2 lo * y' lo - z2' lo * y lo) in *. set (r := z2 lo * z1' lo - z2' lo * z1 lo) in *.
    (* Cramer at both ends: p z2 = q z1 - r y *)
    assert (p * z2 lo = q * z1 lo - r * y lo) as C1 by (unfold p, q, r; ring).
    assert (p * z2' lo = q * z1' lo - r * y' lo) as C2 by (unfold p, q, r; ring).
    assert (p * z2 hi = q * z1 hi - r * (sg * y lo)) as C3 by (rewrite W1, W2, W3; ring).
    assert (p * z2' hi = q * z1' hi - r * (sg * y' lo)) as C4 by (rewrite W1, W2, W3; ring).
    set (D1 := z1 lo * z1' hi - z1' lo * z1 hi) in *. set (D2 := z2 lo * z2' hi - z2' lo * z2 hi) in *.
    assert (p * p * D2 = q * q * D1) as Id.
    { transitivity ((p * z2 lo) * (p * z2' hi) - (p * z2' lo) * (p * z2 hi)); [unfold D2; ring|]. rewrite C1, C2, C3, C4.
      transitivity (q * q * D1 - q * r * (sg * p + (y lo * z1' hi - y' lo * z1 hi))); [unfold D1, p; ring|].
      assert (y lo * z1' hi - y' lo * z1 hi = - sg * p) as ->; [|ring].
      transitivity (- sg * (z1 hi * (sg * y' lo) - z1' hi * (sg * y lo))); [|rewrite <- W1; reflexivity].
      transitivity (- (sg * sg) * (z1 hi * y' lo - z1' hi * y lo)); [rewrite Hs; ring|ring]. }
    assert (0 < - (e * D1)) as P1. { rewrite Q1. replace (- (e * (- k1 * sin (b - a)))) with (k1 * (e * sin (b - a))) by ring. apply Rmult_lt_0_compat; assumption. }
    assert (0 < e * D2) as P2. { rewrite Q2. replace (e * (- k2 * sin (b' - a'))) with (k2 * (- (e * sin (b' - a')))) by ring. apply Rmult_lt_0_compat; lra. }
    assert (p * p * (e * D2) = q * q * (e * D1)) as Id2. { transitivity (e * (p * p * D2)); [ring|rewrite Id; ring]. }
    assert (p = 0) as Zp. { destruct (Req_dec p 0) as [|Np]; [assumption|exfalso]. assert (0 < p * p * (e * D2)) by (apply Rmult_lt_0_compat; [nra|exact P2]). assert (0 <= q * q * (- (e * D1))) by (apply Rmult_le_pos; [nra|lra]). lra. }
    (* then z1 is parallel to y and D1 = 0 *)
    destruct (parallel (y lo) (y' lo) (z1 lo) (z1' lo) (Ny lo ltac:(lra)) (N1 lo ltac:(lra)) ltac:(unfold p in Zp; lra)) as (j & Hj & J0 & J1).
    destruct (solution_unique V l lo hi M (proj2 PT) ltac:(intros s Hin; left; apply Ho, Hin) HM HM0 E z1 z1' y y' S1 Sy j lo ltac:(lra) J0 J1 hi ltac:(lra)) as [U0 U1].
    assert (D1 = 0) as Z1. { unfold D1. rewrite U0, U1, J0, J1, Y0, Y1. ring. } rewrite Z1 in P1. lra. }
  destruct (Classical_Prop.classic (forall a b, turned E a b -> b - a <= IZR n * PI)) as [|NL]; [left; assumption|right].
  intros a b T. destruct (Rle_lt_dec (IZR n * PI) (b - a)) as [|L]; [assumption|exfalso]. apply NL. intros a' b' T'.
  destruct (Rle_lt_dec (b' - a') (IZR n * PI)) as [|L']; [assumption|exfalso]. apply (K a' b' a b T' T L' L).
Qed.
End Hill2.
