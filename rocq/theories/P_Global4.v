(** Determinants of the step matrices, round trips, matching errors and brackets around eigenvalues. *)
From Coq Require Import String Reals ZArith Lra Lia.
From Coquelicot Require Import Coquelicot.
From Coq Require Import List Bool.
From Verif Require Import Base S_Sectors S_Legendre S_Formulas M_Sectors M_Core S_Core M_Formulas S_Accuracy P_Lookup P_Core P_Core2 P_Global P_Global2 P_Global3.
Import ListNotations.
Open Scope R_scope.

(** ---- determinants *)
Lemma det_near : forall T c d c' d' eta m, nearT T c d c' d' eta -> c * d' - d * c' = 1 -> 0 <= eta ->
  Rabs c <= m -> Rabs d <= m -> Rabs c' <= m -> Rabs d' <= m -> Rabs (det T - 1) <= eta * (4 * m + 2 * eta).
Proof.
  intros T c d c' d' eta m (T0 & T1 & T2 & T3) W He C1 C2 C3 C4. unfold det. rewrite <- W.
  replace (t00 T * t11 T - t01 T * t10 T - (c * d' - d * c')) with
    ((t00 T - c) * (t11 T - d') + (t00 T - c) * d' + c * (t11 T - d') - ((t01 T - d) * (t10 T - c') + (t01 T - d) * c' + d * (t10 T - c'))) by ring.
  assert (forall x y a b, Rabs x <= a -> Rabs y <= b -> Rabs (x * y) <= a * b) as P.
  { intros x y a b Hx Hy. rewrite Rabs_mult. apply Rmult_le_compat; auto using Rabs_pos. }
  pose proof (P _ _ _ _ T0 T3). pose proof (P _ _ _ _ T0 C4). pose proof (P _ _ _ _ C1 T3).
  pose proof (P _ _ _ _ T1 T2). pose proof (P _ _ _ _ T1 C3). pose proof (P _ _ _ _ C2 T2).
  eapply Rle_trans; [apply Rabs_triang|]. rewrite Rabs_Ropp.
  pose proof (Rabs_triang ((t00 T - c) * (t11 T - d') + (t00 T - c) * d') (c * (t11 T - d'))).
  pose proof (Rabs_triang ((t00 T - c) * (t11 T - d')) ((t00 T - c) * d')).
  pose proof (Rabs_triang ((t01 T - d) * (t10 T - c') + (t01 T - d) * c') (d * (t10 T - c'))).
  pose proof (Rabs_triang ((t01 T - d) * (t10 T - c')) ((t01 T - d) * c')). lra.
Qed.

Lemma near_one_abs : forall x k, Rabs (x - 1) <= k -> Rabs x <= 1 + k.
Proof. intros x k H. replace x with ((x - 1) + 1) by ring. pose proof (Rabs_triang (x - 1) 1). rewrite Rabs_R1 in *. lra. Qed.

Lemma determinant : forall B W, 0 <= B -> 0 <= W -> exists K, 0 <= K /\
  forall (s : sec) E, (forall k, (1 <= k <= 15)%nat -> Rabs (nth k (spay s) 0) <= B) -> Rabs (v0 s - E) <= W -> 0 < sh s <= 1 ->
    (forall delta u, 0 <= delta <= sh s -> Rabs (det (calculateT eta_code s E delta u) - 1) <= K * (sh s ^ 15 + / 10 ^ 12)) /\
    (/ 10 ^ 12 < sh s -> forall u : bool, Rabs (det (calculateT eta_code s E (sh s) u) - 1) <= K * (sh s ^ (if u then 19 else 15) + / 10 ^ 20)).
Proof.
  intros B W HB HW. destruct (sector_matrix B W HB HW) as (K & HK & HT).
  exists (K * (4 * (1 + K) + 2 * (2 * K))). split; [apply Rmult_le_pos; lra|].
  intros s E Hv Hw Hh. destruct (fundamental_exists 15 (fun k => nth k (spay s) 0) (sh s) E) as (c & c' & d & d' & HF).
  destruct (HT s E Hv Hw Hh c c' d d' HF) as (Hid & Hpart & Hfull & _).
  assert (forall delta e T, 0 <= delta <= sh s -> 0 <= e <= 2 -> nearT T (c delta) (d delta) (c' delta) (d' delta) (K * e) ->
     Rabs (det T - 1) <= K * (4 * (1 + K) + 2 * (2 * K)) * e) as Fin.
  { intros delta e T Hd He Hn. destruct (Hid delta Hd) as (Wr & A1 & A2 & A3 & A4).
    assert (K * sh s <= K * 1) by (apply Rmult_le_compat_l; lra). assert (0 <= K * e) by (apply Rmult_le_pos; lra).
    assert (K * e <= K * 2) by (apply Rmult_le_compat_l; lra).
    eapply Rle_trans; [apply (det_near T _ _ _ _ (K * e) (1 + K) Hn Wr)|]; try lra.
    - pose proof (near_one_abs _ _ A1). lra.
    - pose proof (near_one_abs _ _ A4). lra.
    - replace (K * (4 * (1 + K) + 2 * (2 * K)) * e) with (K * e * (4 * (1 + K) + 2 * (2 * K))) by ring. apply Rmult_le_compat_l; lra. }
  assert (forall n, 0 <= sh s ^ n <= 1) as Pw by (intro n; split; [apply pow_le; lra|rewrite <- (pow1 n); apply pow_incr; lra]).
  assert (forall n, 0 < / 10 ^ n <= 1) as Pt.
  { intro n. split; [apply Rinv_0_lt_compat, pow_lt; lra|]. rewrite <- Rinv_1. apply Rinv_le_contravar; [lra|]. apply pow_R1_Rle. lra. }
  split.
  - intros delta u Hd. pose proof (Pw 15%nat). pose proof (Pt 12%nat). apply (Fin delta); [exact Hd|lra|apply Hpart, Hd].
  - intros H12 u. pose proof (Pw (if u then 19 else 15)%nat). pose proof (Pt 20%nat). apply (Fin (sh s)); [lra|lra|apply Hfull, H12].
Qed.

(** determinant error of the step matrix for position x *)
Lemma determinant_at : forall B W, 0 <= B -> 0 <= W -> exists K, 0 <= K /\
  forall (s : sec) E u x, directed s -> (forall k, (1 <= k <= 15)%nat -> Rabs (nth k (spay s) 0) <= B) -> Rabs (v0 s - E) <= W -> / 10 ^ 12 < sh s <= 1 ->
    Rabs (det (calculateT eta_code s E (dl s x) u) - 1) <= K * step_err s u x.
Proof.
  intros B W HB HW. destruct (determinant B W HB HW) as (K & HK & HT). exists K. split; [exact HK|].
  intros s E u x Hdir Hv Hw Hh. assert (0 < / 10 ^ 12) by (apply Rinv_0_lt_compat, pow_lt; lra). assert (0 < / 10 ^ 20) by (apply Rinv_0_lt_compat, pow_lt; lra).
  destruct (HT s E Hv Hw ltac:(lra)) as [H1 H2].
  assert (smin s < smax s) as Ho by (unfold sh in Hh; lra).
  assert (dl s x = 0 \/ dl s x = sh s -> Rabs (det (calculateT eta_code s E (dl s x) u) - 1) <= K * (sh s ^ (if u then 19 else 15) + / 10 ^ 20)) as Hend.
  { intros [->| ->]; [|exact (H2 (proj1 Hh) u)]. rewrite calculateT_at_zero. unfold det, Tid; cbn [t00 t01 t10 t11].
    replace (1 * 1 - 0 * 0 - 1) with 0 by ring. rewrite Rabs_R0. apply Rmult_le_pos; [exact HK|].
    assert (0 < sh s ^ (if u then 19 else 15)) by (apply pow_lt; lra). lra. }
  unfold step_err. destruct (Rlt_dec (smin s) x); [destruct (Rlt_dec x (smax s))|].
  - apply H1. apply dl_range. lra.
  - apply Hend. unfold dl. rewrite cl_high by lra. unfold sh. destruct (sdir s); lra.
  - apply Hend. unfold dl. rewrite cl_low by lra. unfold sh. destruct (sdir s); lra.
Qed.

(** ---- round trips: the solution comes back multiplied by the product of the determinants *)
Definition scaled (k : R) (Z Z' : Y) : Prop := y0 Z' = k * y0 Z /\ y1 Z' = k * y1 Z.
Section Trip.
Variable calcT : sec -> R -> R -> bool -> Tm.
Variable vm : R.
Hypothesis T0 : forall s E u, calcT s E 0 u = Tid.
Definition trip_factor (E a b : R) (u : bool) (s : sec) : R :=
  if noop_dec s a b then 1 else det (calcT s E (dl s a) u) * det (calcT s E (dl s b) u).
Lemma trip_factor_sym : forall E a b u s, trip_factor E b a u s = trip_factor E a b u s.
Proof.
  intros. unfold trip_factor. destruct (noop_dec s b a) as [H|H], (noop_dec s a b) as [H'|H']; try ring; exfalso; unfold noop in *; tauto.
Qed.
Lemma rv_scaled : forall s k Z Z', scaled k Z Z' -> scaled k (rv s Z) (rv s Z').
Proof. intros s k Z Z' [A B]. unfold rv, scaled. destruct (sdir s); cbn [reverse y0 y1]; rewrite ?A, ?B; split; ring. Qed.
Lemma rv_rv : forall s Z, rv s (rv s Z) = Z.
Proof. intros s Z. unfold rv. destruct (sdir s); try reflexivity; apply reverse_reverse. Qed.
Lemma tmul_scaled : forall T k Z Z', scaled k Z Z' -> scaled k (tmul T Z) (tmul T Z').
Proof. intros T k Z Z' [A B]. unfold scaled, tmul; cbn [y0 y1]. rewrite A, B. split; ring. Qed.
Lemma tdiv_scaled : forall T k Z Z', scaled k Z Z' -> scaled k (tdiv T Z) (tdiv T Z').
Proof. intros T k Z Z' [A B]. unfold scaled, tdiv, tmul; cbn [y0 y1 t00 t01 t10 t11]. rewrite A, B. split; ring. Qed.
Lemma scaled_trans : forall k1 k2 Z1 Z2 Z3, scaled k1 Z1 Z2 -> scaled k2 Z2 Z3 -> scaled (k1 * k2) Z1 Z3.
Proof. intros k1 k2 Z1 Z2 Z3 [A B] [C D]. split; [rewrite C, A|rewrite D, B]; ring. Qed.
Lemma tdiv_tmul_scaled : forall T Z, scaled (det T) Z (tdiv T (tmul T Z)).
Proof. intros. unfold scaled, tdiv, tmul, det; cbn [y0 y1 t00 t01 t10 t11]. split; ring. Qed.
Lemma tmul_tdiv_scaled : forall T Z, scaled (det T) Z (tmul T (tdiv T Z)).
Proof. intros. unfold scaled, tdiv, tmul, det; cbn [y0 y1 t00 t01 t10 t11]. split; ring. Qed.
Lemma yprop_scaled : forall s E a b u k Z Z', directed s -> smin s < smax s -> scaled k Z Z' -> scaled k (yprop calcT vm s E a b u Z) (yprop calcT vm s E a b u Z').
Proof.
  intros s E a b u k Z Z' Hd Ho H. destruct (noop_dec s a b) as [Hn|Hn].
  - unfold yprop. rewrite !yprop_noop by exact Hn. exact H.
  - rewrite !yprop_shape by assumption. auto using rv_scaled, tmul_scaled, tdiv_scaled.
Qed.
Lemma runY_scaled : forall ss E a b u k Z Z', (forall s, In s ss -> directed s /\ smin s < smax s) -> scaled k Z Z' ->
  scaled k (runY calcT vm ss E a b u Z) (runY calcT vm ss E a b u Z').
Proof.
  induction ss as [|s ss IH]; intros E a b u k Z Z' H HS; [exact HS|].
  change (scaled k (runY calcT vm ss E a b u (yprop calcT vm s E a b u Z)) (runY calcT vm ss E a b u (yprop calcT vm s E a b u Z'))).
  apply IH; [intros; apply H; right; assumption|]. destruct (H s (or_introl eq_refl)). apply yprop_scaled; assumption.
Qed.
Lemma yprop_trip : forall s E a b u Z, directed s -> smin s < smax s ->
  scaled (trip_factor E a b u s) Z (yprop calcT vm s E b a u (yprop calcT vm s E a b u Z)).
Proof.
  intros s E a b u Z Hd Ho. unfold trip_factor. destruct (noop_dec s a b) as [Hn|Hn].
  - unfold yprop. rewrite (yprop_noop calcT vm s E a b) by exact Hn. cbn [fst]. rewrite yprop_noop by (unfold noop in Hn; tauto). unfold scaled; cbn [fst]. split; ring.
  - rewrite (yprop_shape calcT vm T0 s E a b) by assumption. rewrite yprop_shape; try assumption; [|unfold noop in Hn; tauto].
    rewrite rv_rv. rewrite <- (rv_rv s Z) at 1. apply rv_scaled. rewrite Rmult_comm.
    set (Ta := calcT s E (dl s a) u). set (Tb := calcT s E (dl s b) u). set (z := rv s Z).
    rewrite Rmult_comm. eapply scaled_trans; [apply (tmul_tdiv_scaled Ta)|]. apply tmul_scaled. apply tdiv_tmul_scaled.
Qed.
Definition prodf (f : sec -> R) (l : list sec) : R := fold_right (fun s acc => f s * acc) 1 l.
Lemma runY_trip : forall ss E a b u Z, (forall s, In s ss -> directed s /\ smin s < smax s) ->
  scaled (prodf (trip_factor E a b u) ss) Z (runY calcT vm (rev ss) E b a u (runY calcT vm ss E a b u Z)).
Proof.
  induction ss as [|s ss IH]; intros E a b u Z H.
  - unfold prodf, scaled; cbn. split; ring.
  - cbn [rev]. rewrite runY_app. cbn [prodf fold_right]. fold (prodf (trip_factor E a b u) ss).
    change (runY calcT vm (s :: ss) E a b u Z) with (runY calcT vm ss E a b u (yprop calcT vm s E a b u Z)).
    specialize (IH E a b u (yprop calcT vm s E a b u Z) ltac:(intros; apply H; right; assumption)).
    destruct (H s (or_introl eq_refl)) as [Hd Ho]. unfold runY at 1. cbn [fold_left].
    eapply scaled_trans; [apply (yprop_trip s E a b u Z Hd Ho)|]. apply yprop_scaled; assumption.
Qed.
Lemma yprop_stay : forall s E a u Z, directed s -> smin s < smax s ->
  scaled (if noop_dec s a a then 1 else det (calcT s E (dl s a) u)) Z (yprop calcT vm s E a a u Z).
Proof.
  intros s E a u Z Hd Ho. destruct (noop_dec s a a) as [Hn|Hn].
  - unfold yprop. rewrite yprop_noop by exact Hn. unfold scaled; cbn [fst]. split; ring.
  - rewrite (yprop_shape calcT vm T0 s E a a) by assumption. rewrite <- (rv_rv s Z) at 1. apply rv_scaled. apply tmul_tdiv_scaled.
Qed.
Lemma runY_stay : forall ss E a u Z, (forall s, In s ss -> directed s /\ smin s < smax s) ->
  exists k, k * k = prodf (trip_factor E a a u) ss /\ scaled k Z (runY calcT vm ss E a a u Z).
Proof.
  induction ss as [|s ss IH]; intros E a u Z H.
  - exists 1. unfold prodf, scaled; cbn. repeat split; ring.
  - destruct (IH E a u (yprop calcT vm s E a a u Z) ltac:(intros; apply H; right; assumption)) as (k & Hk & Hs).
    destruct (H s (or_introl eq_refl)) as [Hd Ho]. pose proof (yprop_stay s E a u Z Hd Ho) as Hy.
    exists ((if noop_dec s a a then 1 else det (calcT s E (dl s a) u)) * k). split.
    + unfold prodf in *; cbn [fold_right]. rewrite <- Hk. unfold trip_factor. destruct (noop_dec s a a); ring.
    + exact (scaled_trans _ _ _ _ _ Hy Hs).
Qed.
End Trip.
Lemma prodf_rev : forall f l, prodf f (rev l) = prodf f l.
Proof.
  intros f l. assert (forall l1 l2, prodf f (l1 ++ l2) = prodf f l1 * prodf f l2) as App.
  { intros l1 l2. induction l1 as [|s l1 IH]; unfold prodf in *; cbn [app fold_right]; [ring|]. rewrite IH. ring. }
  induction l as [|s l IH]; [reflexivity|]. cbn [rev]. rewrite App, IH. unfold prodf; cbn [fold_right]. ring.
Qed.
Lemma prod_near_one : forall (f e : sec -> R) l, (forall s, In s l -> Rabs (f s - 1) <= e s) -> Rabs (prodf f l - 1) <= exp (sumf e l) - 1.
Proof.
  intros f e l. induction l as [|s l IH]; intros H.
  - unfold prodf; cbn [fold_right]. rewrite sumf_nil, exp_0. replace (1 - 1) with 0 by ring. rewrite Rabs_R0. lra.
  - unfold prodf; cbn [fold_right]. fold (prodf f l). rewrite sumf_cons, exp_plus. specialize (IH ltac:(intros; apply H; right; assumption)).
    pose proof (H s (or_introl eq_refl)) as Hs. pose proof (exp_ineq1_le (e s)) as Hx.
    replace (f s * prodf f l - 1) with ((f s - 1) * (prodf f l - 1) + (f s - 1) + (prodf f l - 1)) by ring.
    pose proof (Rabs_triang ((f s - 1) * (prodf f l - 1) + (f s - 1)) (prodf f l - 1)). pose proof (Rabs_triang ((f s - 1) * (prodf f l - 1)) (f s - 1)).
    rewrite Rabs_mult in *. pose proof (Rabs_pos (f s - 1)). pose proof (Rabs_pos (prodf f l - 1)).
    assert (Rabs (f s - 1) * Rabs (prodf f l - 1) <= (exp (e s) - 1) * (exp (sumf e l) - 1)) by (apply Rmult_le_compat; lra). lra.
Qed.
Lemma exp_minus_1 : forall x m, 0 <= x <= m -> exp x - 1 <= x * exp m.
Proof.
  intros x m Hx. destruct (Req_dec x 0) as [->|Hne]; [rewrite exp_0; lra|].
  destruct (MVT_cor2 exp exp 0 x ltac:(lra) ltac:(intros; apply derivable_pt_lim_exp)) as (c & Hc & Hr). rewrite exp_0, Rminus_0_r in Hc.
  rewrite Hc, Rmult_comm. apply Rmult_le_compat_l; [lra|]. left. apply exp_increasing. lra.
Qed.

(** the number of sectors is limited by their minimal length *)
Lemma count_bound : forall l lo hi, chain lo hi l -> (forall s, In s l -> / 10 ^ 12 < sh s) -> INR (length l) / 10 ^ 20 <= hi - lo.
Proof.
  intros l lo hi C H. rewrite <- (sumf_sh l lo hi C). unfold Rdiv. rewrite <- sumf_const. apply sumf_le. intros s Hs. specialize (H s Hs).
  assert (/ 10 ^ 20 <= / 10 ^ 12) by (apply Rinv_le_contravar; [apply pow_lt; lra|apply Rle_pow; [lra|lia]]). lra.
Qed.

(** what the estimates need of a sector, independently of any potential *)
Definition sector_bounded (E B W H : R) (s : sec) : Prop :=
  directed s /\ / 10 ^ 12 < sh s <= H /\ (forall k, (1 <= k <= 15)%nat -> Rabs (nth k (spay s) 0) <= B) /\ Rabs (v0 s - E) <= W.

Lemma round_trip : forall B W L, 0 <= B -> 0 <= W -> 0 <= L -> exists K, 0 <= K /\
  forall vm l lo hi E H a b u Z pen, partition lo hi l -> hi - lo <= L -> H <= 1 ->
  (forall s, In s l -> sector_bounded E B W H s) -> lo <= a <= hi -> lo <= b <= hi ->
  (is_boundary a l /\ is_boundary b l /\ pen = 0) \/ pen = H ^ 15 + / 10 ^ 12 ->
  exists Z1 Z2 t1 t2 k, propagate (calculateT eta_code) vm l lo hi E Z a b u = Ret (Z1, t1) /\
    propagate (calculateT eta_code) vm l lo hi E Z1 b a u = Ret (Z2, t2) /\ y0 Z2 = k * y0 Z /\ y1 Z2 = k * y1 Z /\
    Rabs (k - 1) <= K * (H ^ ord u + INR (length l) / 10 ^ 20 + pen).
Proof.
  intros B W L HB HW HL. destruct (determinant_at B W HB HW) as (K & HK & HT).
  set (c := K * (2 + K * 2)). assert (0 <= c) as Hc0 by (apply Rmult_le_pos; lra).
  set (top := c * ((2 * L + 2) * (1 + L + 2))).
  exists (c * (2 * L + 2) * exp top).
  assert (0 < exp top) as Hexp by apply exp_pos. split; [apply Rmult_le_pos; [apply Rmult_le_pos; lra|lra]|].
  intros vm l lo hi E H a b u Z pen PT Hlen HH Hok Ha Hb Hpen. pose proof PT as [Hne Ch].
  assert (0 < / 10 ^ 12) as E12 by (apply Rinv_0_lt_compat, pow_lt; lra).
  assert (forall s, In s l -> 0 < sh s <= H) as Hsh by (intros s Hs; destruct (Hok s Hs) as (_ & Q & _); lra).
  assert (0 < H <= 1) as HH0. { destruct l as [|s0 l0]; [congruence|]. specialize (Hsh s0 (or_introl eq_refl)). lra. }
  assert (forall s, In s l -> smin s < smax s) as Hlt by (intros s Hs; specialize (Hsh s Hs); unfold sh in Hsh; lra).
  assert (forall s, In s l -> smin s <= smax s) as Hle by (intros s Hs; specialize (Hlt s Hs); lra).
  assert (forall s, In s l -> directed s /\ smin s < smax s) as Hdl by (intros s Hs; destruct (Hok s Hs) as (Q & _); auto).
  destruct (propagate_full (calculateT eta_code) vm l lo hi PT a b Hle Ha Hb E Z u) as [t1 R1].
  set (Z1 := runY _ _ _ _ _ _ _ _) in R1.
  destruct (propagate_full (calculateT eta_code) vm l lo hi PT b a Hle Hb Ha E Z1 u) as [t2 R2].
  set (k := prodf (trip_factor (calculateT eta_code) E a b u) l).
  assert (scaled k Z (runY (calculateT eta_code) vm (if Rleb b a then l else rev l) E b a u Z1)) as [S0 S1].
  { unfold Z1, k. destruct (Rleb a b) eqn:AB; [apply Rleb_true in AB|apply Rleb_false in AB]; (destruct (Rleb b a) eqn:BA; [apply Rleb_true in BA|apply Rleb_false in BA]); try lra.
    - assert (a = b) by lra. subst b.
      destruct (runY_stay (calculateT eta_code) vm ltac:(intros; apply calculateT_at_zero) l E a u Z Hdl) as (k1 & K1 & S1).
      assert (scaled k1 (runY (calculateT eta_code) vm l E a a u Z) (runY (calculateT eta_code) vm l E a a u (runY (calculateT eta_code) vm l E a a u Z))) as S3.
      { apply runY_scaled; [intros; apply calculateT_at_zero|exact Hdl|exact S1]. }
      rewrite <- K1. exact (scaled_trans _ _ _ _ _ S1 S3).
    - apply runY_trip; [intros; apply calculateT_at_zero|exact Hdl].
    - rewrite <- (rev_involutive l) at 2. rewrite <- prodf_rev. apply runY_trip; [intros; apply calculateT_at_zero|]. intros s Hs. apply Hdl. apply in_rev. exact Hs. }
  exists Z1. eexists. exists t1, t2, k. split; [exact R1|]. split; [exact R2|]. split; [exact S0|]. split; [exact S1|].
  assert (0 < / 10 ^ 20) as E20 by (apply Rinv_0_lt_compat, pow_lt; lra).
  set (eps := fun s => step_err s u a + step_err s u b).
  assert (forall s, In s l -> 0 <= step_err s u a <= 2 /\ 0 <= step_err s u b <= 2) as Hse.
  { intros s Hs. destruct (Hok s Hs) as (_ & Q & _). pose proof (step_err_small s u a ltac:(lra)). pose proof (step_err_small s u b ltac:(lra)). lra. }
  assert (forall s, In s l -> Rabs (trip_factor (calculateT eta_code) E a b u s - 1) <= eps s * c) as Hf.
  { intros s Hs. destruct (Hok s Hs) as (Q1 & Q2 & Q3 & Q4). destruct (Hse s Hs) as [A1 A2]. unfold eps, trip_factor. destruct (noop_dec s a b).
    - replace (1 - 1) with 0 by ring. rewrite Rabs_R0. apply Rmult_le_pos; lra.
    - pose proof (HT s E u a Q1 Q3 Q4 ltac:(lra)) as Da. pose proof (HT s E u b Q1 Q3 Q4 ltac:(lra)) as Db.
      set (p := det _) in *. set (q := det _) in Db |- *. set (ea := step_err s u a) in *. set (eb := step_err s u b) in *.
      replace (p * q - 1) with ((p - 1) * (q - 1) + (p - 1) + (q - 1)) by ring.
      pose proof (Rabs_triang ((p - 1) * (q - 1) + (p - 1)) (q - 1)). pose proof (Rabs_triang ((p - 1) * (q - 1)) (p - 1)). rewrite Rabs_mult in *.
      assert (0 <= K * ea) by (apply Rmult_le_pos; lra). assert (0 <= K * eb) by (apply Rmult_le_pos; lra). assert (K * eb <= K * 2) by (apply Rmult_le_compat_l; lra).
      assert (Rabs (p - 1) * Rabs (q - 1) <= K * ea * (K * 2)) by (apply Rmult_le_compat; auto using Rabs_pos; lra).
      assert (0 <= K * 2 * (K * eb)) by (apply Rmult_le_pos; lra). unfold c. lra. }
  pose proof (prod_near_one _ (fun s => eps s * c) l Hf) as HP. fold k in HP. eapply Rle_trans; [exact HP|].
  rewrite sumf_scal.
  assert (0 <= H ^ ord u <= 1) as Hord by (split; [apply pow_le; lra|rewrite <- (pow1 (ord u)); apply pow_incr; lra]).
  assert (0 <= INR (length l) / 10 ^ 20) as Hn20 by (apply Rmult_le_pos; [apply pos_INR|lra]).
  assert (INR (length l) / 10 ^ 20 <= L) as HnL. { eapply Rle_trans; [apply (count_bound l lo hi Ch)|exact Hlen]. intros s Hs. destruct (Hok s Hs) as (_ & Q & _). apply Q. }
  assert (0 <= pen <= 2) as Hpen2.
  { destruct Hpen as [(_ & _ & ->)| ->]; [lra|]. assert (0 <= H ^ 15 <= 1) by (split; [apply pow_le; lra|rewrite <- (pow1 15); apply pow_incr; lra]).
    assert (/ 10 ^ 12 <= 1) by (rewrite <- Rinv_1; apply Rinv_le_contravar; [lra|apply pow_R1_Rle; lra]). lra. }
  set (ea := H ^ ord u + INR (length l) / 10 ^ 20 + pen).
  assert (0 <= ea <= 1 + L + 2) as Hea by (unfold ea; lra).
  assert (sumf eps l <= (2 * L + 2) * ea) as Heps.
  { unfold eps. rewrite sumf_plus.
    assert (forall x, (x = a \/ x = b) -> sumf (fun s => step_err s u x) l <= (hi - lo) * H ^ ord u + INR (length l) / 10 ^ 20 + pen) as Q.
    { intros x Hx. apply (sum_step_err u x l lo hi H pen Ch HH0 Hsh). destruct Hpen as [(B1 & B2 & ->)| ->]; [left|right; reflexivity]. destruct Hx as [->| ->]; auto. }
    pose proof (Q a (or_introl eq_refl)). pose proof (Q b (or_intror eq_refl)).
    assert ((hi - lo) * H ^ ord u <= L * H ^ ord u) by (apply Rmult_le_compat_r; lra).
    assert (0 <= L * H ^ ord u) by (apply Rmult_le_pos; lra).
    assert (0 <= L * (INR (length l) / 10 ^ 20)) by (apply Rmult_le_pos; lra). assert (0 <= L * pen) by (apply Rmult_le_pos; lra). unfold ea. lra. }
  assert (0 <= sumf eps l) as Heps0. { apply sumf_nonneg. intros s Hs. destruct (Hse s Hs). unfold eps. lra. }
  assert (sumf eps l * c <= (2 * L + 2) * ea * c) as X1 by (apply Rmult_le_compat_r; assumption).
  assert ((2 * L + 2) * ea * c <= top) as X2.
  { unfold top. rewrite (Rmult_comm c). apply Rmult_le_compat_r; [exact Hc0|]. apply Rmult_le_compat_l; lra. }
  assert (0 <= sumf eps l * c) as X0 by (apply Rmult_le_pos; assumption).
  eapply Rle_trans; [apply (exp_minus_1 _ top); lra|].
  replace (c * (2 * L + 2) * exp top * ea) with ((2 * L + 2) * ea * c * exp top) by ring. apply Rmult_le_compat_r; lra.
Qed.

