(** Proofs about Sector::error(), the local error estimate. *)
From Coq Require Import String Reals ZArith.
From Coquelicot Require Import Coquelicot.
From Coq Require Import List Bool Lia Lra.
From Verif Require Import Base M_Sectors M_Core M_Eta M_Formulas S_Eta P_Eta P_Eta2 S_Formulas T_Formulas.
Import ListNotations.
Open Scope R_scope.

(** calculateEta is exact for Z = 0 *)
Lemma eta_at_0 i : eta i 0 = eta_coef i 0.
Proof. unfold eta. apply PSeries_0. Qed.
Lemma series_0 k m : forall q f acc, series_loop k 0 m q f acc = acc.
Proof.
  assert (forall k q acc, series_loop k 0 m q 0 acc = acc) as H0.
  { intro n; induction n as [|n IH]; intros; [reflexivity|]. cbn [series_loop]. destruct (q <? 60)%Z; [|reflexivity].
    rewrite Rmult_0_l, Rplus_0_r. apply IH. }
  destruct k as [|k]; intros; [reflexivity|]. cbn [series_loop]. destruct (q <? 60)%Z; [|reflexivity].
  replace (f * (0 / IZR (q * (q + m)))) with 0 by (unfold Rdiv; ring). rewrite Rplus_0_r. apply H0.
Qed.
Lemma back_0 k n : forall cur next (l : list R), cur = eta k 0 -> (forall i, (i < n - k)%nat -> nth i l 0 = eta (k + i) 0) ->
  List.length l = (n - k)%nat -> List.length (back_loop k n 0 cur next l) = n /\ forall i, (i < n)%nat -> nth i (back_loop k n 0 cur next l) 0 = eta i 0.
Proof.
  induction k as [|k IH]; intros cur next l Hc Hl Hn; cbn [back_loop].
  - split; [lia|]. intros i Hi. rewrite Hl by lia. reflexivity.
  - assert (IZR (2 * Z.of_nat k + 1) * cur + 0 * next = eta k 0) as E.
    { rewrite Hc, !eta_at_0, (eta_coef_rec0 k), plus_IZR, mult_IZR, <- INR_IZR_INZ. ring. }
    apply IH; [exact E| |].
    + intros i Hi. destruct (Nat.ltb_spec k n); [|lia]. destruct i as [|i]; cbn [nth]; [rewrite E; f_equal; lia|].
      rewrite Hl by lia. f_equal. lia.
    + destruct (Nat.ltb_spec k n); cbn [List.length]; lia.
Qed.
Lemma last_0 n : (n <= last_eta n 0)%nat.
Proof.
  unfold last_eta. destruct (Z.ltb_spec 150 ((Z.abs (trunc 0) + 9) / 4)) as [A|A];
  match goal with |- context [Z.ltb ?a ?b] => destruct (Z.ltb_spec a b) end; lia.
Qed.
Lemma eta_code_0 n : eta_code n 0 = eta_exact n 0.
Proof.
  unfold eta_code, calculate_eta. rewrite Rabs_R0. destruct (Rltb 0 100) eqn:Q; [|apply Rltb_false in Q; lra].
  cbv zeta. rewrite series_0. pose proof (last_0 n) as L. generalize dependent (last_eta n 0). intros l L.
  match goal with |- back_loop l n 0 ?c ?x [] = _ => destruct (back_0 l n c x []) as [A B] end.
  - rewrite eta_at_0. unfold eta_coef. cbn [even_dfact Nat.add]. change (w0_loop l 0 1) with (w0_loop l 0 (odd_dfact 0)). rewrite w0_loop_spec, Nat.add_0_r, Rmult_1_l. unfold Rdiv. ring.
  - intros i Hi. lia.
  - cbn. lia.
  - apply nth_ext with (d := 0) (d' := 0); [rewrite A; unfold eta_exact; rewrite map_length, seq_length; reflexivity|].
    intros i Hi. rewrite A in Hi. rewrite B by exact Hi. unfold eta_exact.
    rewrite (nth_indep _ 0 (eta 0 0)) by (rewrite map_length, seq_length; exact Hi).
    change (eta 0 0) with ((fun i => eta i 0) 0%nat). rewrite map_nth, seq_nth by exact Hi. reflexivity.
Qed.

(** so the computed estimate is the exact one *)
Lemma step_full_0 v h : step_full eta_code v h (v 0%nat) = step_full eta_exact v h (v 0%nat).
Proof. unfold step_full. replace ((v 0%nat - v 0%nat) * h * h) with 0 by ring. rewrite eta_code_0. reflexivity. Qed.
Lemma step_delta_0 v h d : step_delta eta_code v h (v 0%nat) d = step_delta eta_exact v h (v 0%nat) d.
Proof. unfold step_delta. replace ((v 0%nat - v 0%nat) * (d * d)) with 0 by ring. rewrite eta_code_0. reflexivity. Qed.
Lemma error_code s : sector_error eta_code s = sector_error eta_exact s.
Proof.
  unfold sector_error, calculateT_h, calculateT. rewrite (step_full_0 (fun k => nth k (spay s) 0)), (step_delta_0 (fun k => nth k (spay s) 0)). reflexivity.
Qed.

(** ---- the estimate *)
Lemma error_ge_0 etaf s : 0 <= sector_error etaf s.
Proof. unfold sector_error. eapply Rle_trans; [|apply Rmax_l]. eapply Rle_trans; [|apply Rmax_l]. eapply Rle_trans; [|apply Rmax_l]. apply Rabs_pos. Qed.

(** every entry of the difference of the two formulas, in the scaling of the estimate *)
Lemma error_dominates etaf s : let v k := nth k (spay s) 0 in let h := sh s in / 10 ^ 12 < h ->
  let F := step_full etaf v h (v 0%nat) in let D := step_delta etaf v h (v 0%nat) h in let e := sector_error etaf s in
  Rabs (t00 F - t00 D) <= e /\ Rabs (t01 F - t01 D) <= h * e /\ h * Rabs (t10 F - t10 D) <= e /\ Rabs (t11 F - t11 D) <= e.
Proof.
  intros v h Hh F D e.
  assert (0 < h) as Hp by (eapply Rlt_trans; [|exact Hh]; apply Rinv_0_lt_compat, pow_lt; lra).
  assert (calculateT etaf s (v 0%nat) h false = D) as ED.
  { unfold calculateT. fold h. destruct (Rleb (Rabs h) EPS12) eqn:Q; [|reflexivity]. exfalso. apply Rleb_true in Q. unfold EPS12 in Q.
    rewrite Rabs_pos_eq in Q; lra. }
  assert (forall X, X <= Rmax (Rmax (Rabs (t00 F - t00 D)) (Rabs ((t01 F - t01 D) * (1 / h)))) (Rmax (Rabs ((t10 F - t10 D) * h)) (Rabs (t11 F - t11 D)))
     -> X <= e) as M.
  { intros X HX. unfold e, sector_error, calculateT_h. cbv zeta. fold h. change (nth 0 (spay s) 0) with (v 0%nat).
    change (fun k : nat => nth k (spay s) 0) with v. rewrite ED. fold F. eapply Rle_trans; [exact HX|apply Rmax_l]. }
  repeat split.
  - apply M. eapply Rle_trans; [apply Rmax_l|apply Rmax_l].
  - assert (Rabs ((t01 F - t01 D) * (1 / h)) <= e) as H by (apply M; eapply Rle_trans; [apply Rmax_r|apply Rmax_l]).
    rewrite Rabs_mult in H. assert (Rabs (1 / h) = / h) as Eh by (rewrite Rabs_pos_eq; [field; lra|]; apply Rlt_le, Rdiv_lt_0_compat; lra). rewrite Eh in H.
    apply (Rmult_le_compat_l h) in H; [|lra]. replace (h * (Rabs (t01 F - t01 D) * / h)) with (Rabs (t01 F - t01 D)) in H by (field; lra). exact H.
  - assert (Rabs ((t10 F - t10 D) * h) <= e) as H by (apply M; eapply Rle_trans; [apply Rmax_l|apply Rmax_r]).
    rewrite Rabs_mult, (Rabs_pos_eq h) in H by lra. lra.
  - apply M. eapply Rle_trans; [apply Rmax_r|apply Rmax_r].
Qed.

Lemma error_below etaf s M : let v k := nth k (spay s) 0 in let h := sh s in / 10 ^ 12 < h ->
  let F := step_full etaf v h (v 0%nat) in let D := step_delta etaf v h (v 0%nat) h in
  Rabs (t00 F - t00 D) <= M -> Rabs (t01 F - t01 D) <= h * M -> h * Rabs (t10 F - t10 D) <= M -> Rabs (t11 F - t11 D) <= M ->
  24 / 10000 * Rabs (v 15%nat) * h ^ 12 * h * h * h + 25 / 1000000 * v 7%nat * v 7%nat * h ^ 12 * h * h +
    (18 / 1000000 * Rabs (v 3%nat * v 10%nat) + 2 / 100000 * Rabs (v 2%nat * v 11%nat) + 6 / 1000000 * Rabs (v 5%nat * v 8%nat) +
     4 / 1000000 * Rabs (v 4%nat * v 9%nat)) * h ^ 12 * h <= M ->
  (2 / 10000 * v 7%nat * v 7%nat + 3 / 10000 * Rabs (v 5%nat * v 9%nat) + 3 / 10000 * Rabs (v 6%nat * v 8%nat) +
    6 / 10000 * Rabs (v 1%nat * v 13%nat) + 5 / 10000 * Rabs (v 2%nat * v 12%nat) + 4 / 10000 * Rabs (v 3%nat * v 11%nat)) * h ^ 12 * h * h <= M ->
  2 / 10000 * Rabs (v 14%nat) * h ^ 12 * h * h + 1 / 100000 * v 6%nat * v 6%nat * h ^ 12 <= M ->
  sector_error etaf s <= M.
Proof.
  intros v h Hh F D H0 H1 H2 H3 H4 H5 H6.
  assert (0 < h) as Hp by (eapply Rlt_trans; [|exact Hh]; apply Rinv_0_lt_compat, pow_lt; lra).
  assert (calculateT etaf s (v 0%nat) h false = D) as ED.
  { unfold calculateT. fold h. destruct (Rleb (Rabs h) EPS12) eqn:Q; [|reflexivity]. exfalso. apply Rleb_true in Q. unfold EPS12 in Q.
    rewrite Rabs_pos_eq in Q; lra. }
  unfold sector_error, calculateT_h. cbv zeta. fold h. change (nth 0 (spay s) 0) with (v 0%nat).
  change (fun k : nat => nth k (spay s) 0) with v. rewrite ED. fold F.
  repeat apply Rmax_lub; auto.
  - rewrite Rabs_mult. assert (Rabs (1 / h) = / h) as Eh by (rewrite Rabs_pos_eq; [field; lra|]; apply Rlt_le, Rdiv_lt_0_compat; lra). rewrite Eh.
    apply (Rmult_le_reg_l h); [exact Hp|]. replace (h * (Rabs (t01 F - t01 D) * / h)) with (Rabs (t01 F - t01 D)) by (field; lra). exact H1.
  - rewrite Rabs_mult, (Rabs_pos_eq h) by lra. lra.
Qed.

(** zero for a constant potential *)
Lemma error_constant s : let v k := nth k (spay s) 0 in / 10 ^ 12 < sh s -> (forall k, (1 <= k <= 15)%nat -> v k = 0) -> sector_error eta_exact s = 0.
Proof.
  intros v Hh Hv. apply Rle_antisym; [|apply error_ge_0].
  destruct (C14_constant_potential v (sh s) (v 0%nat) (sh s) Hv) as [(A0 & A1 & A2 & A3) (B0 & B1 & B2 & B3)].
  apply error_below; [exact Hh| | | | | | |]; change (fun k : nat => nth k (spay s) 0) with v; cbv beta; change (nth 0 (spay s) 0) with (v 0%nat).
  1-4: rewrite ?A0, ?A1, ?A2, ?A3, ?B0, ?B1, ?B2, ?B3, Rminus_eq_0, Rabs_R0; lra.
  all: change (fun k : nat => nth k (spay s) 0) with v.
  - change (nth 15 (spay s) 0) with (v 15%nat). change (nth 7 (spay s) 0) with (v 7%nat). change (nth 3 (spay s) 0) with (v 3%nat).
    change (nth 2 (spay s) 0) with (v 2%nat). change (nth 5 (spay s) 0) with (v 5%nat). change (nth 4 (spay s) 0) with (v 4%nat).
    rewrite (Hv 15%nat), (Hv 7%nat), (Hv 3%nat), (Hv 2%nat), (Hv 5%nat), (Hv 4%nat) by lia. rewrite !Rmult_0_l, Rabs_R0. right. ring.
  - change (nth 7 (spay s) 0) with (v 7%nat). change (nth 3 (spay s) 0) with (v 3%nat). change (nth 1 (spay s) 0) with (v 1%nat).
    change (nth 2 (spay s) 0) with (v 2%nat). change (nth 5 (spay s) 0) with (v 5%nat). change (nth 6 (spay s) 0) with (v 6%nat).
    rewrite (Hv 1%nat), (Hv 7%nat), (Hv 3%nat), (Hv 2%nat), (Hv 5%nat), (Hv 6%nat) by lia. rewrite !Rmult_0_l, Rabs_R0. right. ring.
  - change (nth 14 (spay s) 0) with (v 14%nat). change (nth 6 (spay s) 0) with (v 6%nat). rewrite (Hv 14%nat), (Hv 6%nat) by lia. rewrite Rabs_R0. right. ring.
Qed.

(** of order h^12 *)
Lemma pow_le_1 h n : 0 <= h <= 1 -> 0 <= h ^ n <= 1.
Proof. intro H. split; [apply pow_le; lra|]. rewrite <- (pow1 n). apply pow_incr. exact H. Qed.
Lemma error_small B : 0 <= B -> exists K, 0 <= K /\ forall s : sector R (list R), let v k := nth k (spay s) 0 in
  (forall k, (1 <= k <= 15)%nat -> Rabs (v k) <= B) -> / 10 ^ 12 < sh s <= 1 -> sector_error eta_exact s <= K * sh s ^ 12.
Proof.
  intro HB. destruct (C59_partial_step B 0 HB (Rle_refl 0)) as (K1 & P1 & H1). destruct (C59_full_step B 0 HB (Rle_refl 0)) as (K2 & P2 & H2).
  exists (K1 + K2 + B + B * B). split; [nra|]. intros s v Hv [Hh H1h]. set (h := sh s) in *.
  assert (0 < h) as Hp by (eapply Rlt_trans; [|exact Hh]; apply Rinv_0_lt_compat, pow_lt; lra).
  assert (Rabs (v 0%nat - v 0%nat) <= 0) as H0 by (rewrite Rminus_eq_0, Rabs_R0; lra).
  destruct (C59_solutions_exist 15 v h (v 0%nat) 1 0) as (y & y' & Sy & y0 & y0').
  destruct (C59_solutions_exist 15 v h (v 0%nat) 0 1) as (z & z' & Sz & z0 & z0').
  destruct (H1 v h (v 0%nat) Hv H0 (conj Hp H1h) y y' Sy h (conj (Rlt_le _ _ Hp) (Rle_refl h))) as [A1 A2].
  destruct (H1 v h (v 0%nat) Hv H0 (conj Hp H1h) z z' Sz h (conj (Rlt_le _ _ Hp) (Rle_refl h))) as [A3 A4].
  destruct (H2 v h (v 0%nat) Hv H0 (conj Hp H1h) y y' Sy) as [B1 B2].
  destruct (H2 v h (v 0%nat) Hv H0 (conj Hp H1h) z z' Sz) as [B3 B4].
  rewrite y0, y0' in A1, A2, B1, B2. rewrite z0, z0' in A3, A4, B3, B4.
  rewrite Rabs_R0, Rabs_R1 in A1, A2, A3, A4, B1, B2, B3, B4.
  set (F := step_full eta_exact v h (v 0%nat)) in *. set (D := step_delta eta_exact v h (v 0%nat) h) in *.
  assert (0 < h ^ 12) as Q by (apply pow_lt; lra).
  assert (forall k, h ^ (12 + k) <= h ^ 12) as QK.
  { intro k. rewrite pow_add. pose proof (pow_le_1 h k). nra. }
  pose proof (QK 1%nat) as q1. pose proof (QK 2%nat) as q2. pose proof (QK 3%nat) as q3. pose proof (QK 4%nat) as q4. pose proof (QK 7%nat) as q7.
  assert (h ^ 12 * h <= h ^ 12) as p1 by nra.
  assert (h ^ 12 * h * h <= h ^ 12) as p2 by nra.
  assert (h ^ 12 * h * h * h <= h ^ 12) as p3 by nra.
  cbn [Nat.add] in *.
  assert (forall k l, (1 <= k <= 15)%nat -> (1 <= l <= 15)%nat -> Rabs (v k * v l) <= B * B) as Pr.
  { intros k l Hk Hl. rewrite Rabs_mult. apply Rmult_le_compat; auto using Rabs_pos. }
  assert (forall k, (1 <= k <= 15)%nat -> 0 <= v k * v k <= B * B) as Sq.
  { intros k Hk. pose proof (Pr k k Hk Hk) as H. pose proof (Rle_abs (v k * v k)). split; [nra|lra]. }
  assert (forall a c, Rabs (a * 1 + c * 0 - y h) = Rabs (a - y h)) as S1 by (intros; f_equal; ring).
  rewrite S1 in A1, B1.
  assert (forall a c, Rabs (a * 1 + c * 0 - y' h) = Rabs (a - y' h)) as S2 by (intros; f_equal; ring).
  rewrite S2 in A2, B2.
  assert (forall a c, Rabs (a * 0 + c * 1 - z h) = Rabs (c - z h)) as S3 by (intros; f_equal; ring).
  rewrite S3 in A3, B3.
  assert (forall a c, Rabs (a * 0 + c * 1 - z' h) = Rabs (c - z' h)) as S4 by (intros; f_equal; ring).
  rewrite S4 in A4, B4. clear S1 S2 S3 S4.
  assert (h ^ 16 = h * (h ^ 12 * h * h * h)) as e16 by ring.
  assert (h ^ 19 = h * (h ^ 12 * h * h * h * (h * h * h))) as e19 by ring.
  assert (h ^ 12 * h * h * h * (h * h * h) <= h ^ 12) as p6.
  { assert (0 <= h * h * h <= 1) by (split; [|]; nra). nra. }
  assert (forall a b t, Rabs (a - b) <= Rabs (a - t) + Rabs (b - t)) as Tr.
  { intros a b t. replace (a - b) with ((a - t) - (b - t)) by ring. eapply Rle_trans; [apply Rabs_triang|]. rewrite Rabs_Ropp. lra. }
  assert (0 <= B * B * h ^ 12) as N1 by (apply Rmult_le_pos; [nra|lra]).
  assert (0 <= B * h ^ 12) as N2 by (apply Rmult_le_pos; [exact HB|lra]).
  assert (0 <= K1 * h ^ 12) as N3 by (apply Rmult_le_pos; [exact P1|lra]).
  assert (0 <= K2 * h ^ 12) as N4 by (apply Rmult_le_pos; [exact P2|lra]).
  assert (K1 * h ^ 16 <= K1 * h ^ 12) as G1 by (apply Rmult_le_compat_l; [exact P1|exact q4]).
  assert (K2 * h ^ 19 <= K2 * h ^ 12) as G2 by (apply Rmult_le_compat_l; [exact P2|exact q7]).
  assert (K1 * h ^ 15 <= K1 * h ^ 12) as G3 by (apply Rmult_le_compat_l; [exact P1|exact q3]).
  apply error_below; [exact Hh| | | | | | |]; change (fun k : nat => nth k (spay s) 0) with v; fold h; cbv beta; change (nth 0 (spay s) 0) with (v 0%nat); fold F; fold D.
  - pose proof (Tr (t00 F) (t00 D) (y h)). lra.
  - pose proof (Tr (t01 F) (t01 D) (z h)) as T0. eapply Rle_trans; [exact T0|]. rewrite e16 in A3. rewrite e19 in B3.
    assert (K1 * (0 + 1) * (h * (h ^ 12 * h * h * h)) <= h * (K1 * h ^ 12)) as X1.
    { replace (K1 * (0 + 1) * (h * (h ^ 12 * h * h * h))) with (h * (K1 * (h ^ 12 * h * h * h))) by ring.
      apply Rmult_le_compat_l; [lra|]. apply Rmult_le_compat_l; lra. }
    assert (K2 * (0 + 1) * (h * (h ^ 12 * h * h * h * (h * h * h))) <= h * (K2 * h ^ 12)) as X2.
    { replace (K2 * (0 + 1) * (h * (h ^ 12 * h * h * h * (h * h * h)))) with (h * (K2 * (h ^ 12 * h * h * h * (h * h * h)))) by ring.
      apply Rmult_le_compat_l; [lra|]. apply Rmult_le_compat_l; lra. }
    replace (h * ((K1 + K2 + B + B * B) * h ^ 12)) with (h * (K1 * h ^ 12) + h * (K2 * h ^ 12) + h * (B * h ^ 12 + B * B * h ^ 12)) by ring.
    assert (0 <= h * (B * h ^ 12 + B * B * h ^ 12)) by (apply Rmult_le_pos; lra). lra.
  - pose proof (Tr (t10 F) (t10 D) (y' h)) as T0. assert (h * Rabs (t10 F - t10 D) <= Rabs (t10 F - t10 D)) as X by (pose proof (Rabs_pos (t10 F - t10 D)); nra). lra.
  - pose proof (Tr (t11 F) (t11 D) (z' h)). lra.
  - change (nth 15 (spay s) 0) with (v 15%nat). change (nth 7 (spay s) 0) with (v 7%nat). change (nth 3 (spay s) 0) with (v 3%nat).
    change (nth 2 (spay s) 0) with (v 2%nat). change (nth 5 (spay s) 0) with (v 5%nat). change (nth 4 (spay s) 0) with (v 4%nat).
    change (nth 10 (spay s) 0) with (v 10%nat). change (nth 11 (spay s) 0) with (v 11%nat). change (nth 8 (spay s) 0) with (v 8%nat). change (nth 9 (spay s) 0) with (v 9%nat).
    pose proof (Hv 15%nat ltac:(lia)) as a1. pose proof (Sq 7%nat ltac:(lia)) as a2. pose proof (Pr 3%nat 10%nat ltac:(lia) ltac:(lia)) as a3.
    pose proof (Pr 2%nat 11%nat ltac:(lia) ltac:(lia)) as a4. pose proof (Pr 5%nat 8%nat ltac:(lia) ltac:(lia)) as a5. pose proof (Pr 4%nat 9%nat ltac:(lia) ltac:(lia)) as a6.
    pose proof (Rabs_pos (v 15%nat)) as b1. pose proof (Rabs_pos (v 3%nat * v 10%nat)) as b3. pose proof (Rabs_pos (v 2%nat * v 11%nat)) as b4.
    pose proof (Rabs_pos (v 5%nat * v 8%nat)) as b5. pose proof (Rabs_pos (v 4%nat * v 9%nat)) as b6.
    assert (24 / 10000 * Rabs (v 15%nat) * h ^ 12 * h * h * h <= 24 / 10000 * (B * h ^ 12)) as X1.
    { replace (24 / 10000 * Rabs (v 15%nat) * h ^ 12 * h * h * h) with (24 / 10000 * (Rabs (v 15%nat) * (h ^ 12 * h * h * h))) by ring.
      apply Rmult_le_compat_l; [lra|]. apply Rmult_le_compat; [lra| |lra|lra]. repeat apply Rmult_le_pos; lra. }
    assert (25 / 1000000 * v 7%nat * v 7%nat * h ^ 12 * h * h <= 25 / 1000000 * (B * B * h ^ 12)) as X2.
    { replace (25 / 1000000 * v 7%nat * v 7%nat * h ^ 12 * h * h) with (25 / 1000000 * ((v 7%nat * v 7%nat) * (h ^ 12 * h * h))) by ring.
      apply Rmult_le_compat_l; [lra|]. apply Rmult_le_compat; [lra| |lra|lra]. repeat apply Rmult_le_pos; lra. }
    match goal with |- _ + _ + ?q * h ^ 12 * h <= _ => assert (q * h ^ 12 * h <= 48 / 1000000 * (B * B * h ^ 12)) as X3 end.
    { match goal with |- ?q * h ^ 12 * h <= _ => replace (q * h ^ 12 * h) with (q * (h ^ 12 * h)) by ring end.
      replace (48 / 1000000 * (B * B * h ^ 12)) with (48 / 1000000 * (B * B) * h ^ 12) by ring. apply Rmult_le_compat; [lra| |lra|exact p1]. apply Rmult_le_pos; lra. }
    rewrite !Rmult_plus_distr_r. lra.
  - change (nth 7 (spay s) 0) with (v 7%nat). change (nth 3 (spay s) 0) with (v 3%nat). change (nth 1 (spay s) 0) with (v 1%nat).
    change (nth 2 (spay s) 0) with (v 2%nat). change (nth 5 (spay s) 0) with (v 5%nat). change (nth 6 (spay s) 0) with (v 6%nat).
    change (nth 12 (spay s) 0) with (v 12%nat). change (nth 11 (spay s) 0) with (v 11%nat). change (nth 8 (spay s) 0) with (v 8%nat). change (nth 9 (spay s) 0) with (v 9%nat).
    change (nth 13 (spay s) 0) with (v 13%nat).
    pose proof (Sq 7%nat ltac:(lia)) as a2. pose proof (Pr 5%nat 9%nat ltac:(lia) ltac:(lia)) as a3.
    pose proof (Pr 6%nat 8%nat ltac:(lia) ltac:(lia)) as a4. pose proof (Pr 1%nat 13%nat ltac:(lia) ltac:(lia)) as a5. pose proof (Pr 2%nat 12%nat ltac:(lia) ltac:(lia)) as a6.
    pose proof (Pr 3%nat 11%nat ltac:(lia) ltac:(lia)) as a7.
    pose proof (Rabs_pos (v 5%nat * v 9%nat)) as b3. pose proof (Rabs_pos (v 6%nat * v 8%nat)) as b4.
    pose proof (Rabs_pos (v 1%nat * v 13%nat)) as b5. pose proof (Rabs_pos (v 2%nat * v 12%nat)) as b6. pose proof (Rabs_pos (v 3%nat * v 11%nat)) as b7.
    match goal with |- ?q * h ^ 12 * h * h <= _ => assert (q * h ^ 12 * h * h <= 1 / 100 * (B * B * h ^ 12)) as X3 end.
    { match goal with |- ?q * h ^ 12 * h * h <= _ => replace (q * h ^ 12 * h * h) with (q * (h ^ 12 * h * h)) by ring end.
      replace (1 / 100 * (B * B * h ^ 12)) with (1 / 100 * (B * B) * h ^ 12) by ring. apply Rmult_le_compat; [lra| |lra|exact p2]. repeat apply Rmult_le_pos; lra. }
    eapply Rle_trans; [exact X3|]. rewrite !Rmult_plus_distr_r. lra.
  - change (nth 14 (spay s) 0) with (v 14%nat). change (nth 6 (spay s) 0) with (v 6%nat).
    pose proof (Hv 14%nat ltac:(lia)) as a1. pose proof (Sq 6%nat ltac:(lia)) as a2. pose proof (Rabs_pos (v 14%nat)) as b1.
    assert (2 / 10000 * Rabs (v 14%nat) * h ^ 12 * h * h <= 2 / 10000 * (B * h ^ 12)) as X1.
    { replace (2 / 10000 * Rabs (v 14%nat) * h ^ 12 * h * h) with (2 / 10000 * (Rabs (v 14%nat) * (h ^ 12 * h * h))) by ring.
      apply Rmult_le_compat_l; [lra|]. apply Rmult_le_compat; [lra| |lra|lra]. repeat apply Rmult_le_pos; lra. }
    assert (1 / 100000 * v 6%nat * v 6%nat * h ^ 12 <= 1 / 100000 * (B * B * h ^ 12)) as X2.
    { replace (1 / 100000 * v 6%nat * v 6%nat * h ^ 12) with (1 / 100000 * ((v 6%nat * v 6%nat) * h ^ 12)) by ring.
      apply Rmult_le_compat_l; [lra|]. apply Rmult_le_compat_r; lra. }
    rewrite !Rmult_plus_distr_r. lra.
Qed.
