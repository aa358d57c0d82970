(** The stored steps of an eigenfunction and its values in each sector (reals). *)
From Coq Require Import String ZArith Reals List Bool Lia Lra.
From Verif Require Import Base M_Sectors S_Sectors P_Lookup M_Core S_Core P_Prufer P_Core P_Core2 M_Eigen P_Eigen.
Import ListNotations.
Open Scope R_scope.

Section Steps.
Variable calcT : sec -> R -> R -> bool -> Tm.
Variable vm : R.
Variables (l : list sec) (lo hi E : R).
Notation yp := (fun s a b y => sprop_y calcT vm s E y a b true).

(** Solution at the left end of sector i, propagated from the left, resp. from the right. *)
Definition Lf (left : Y) (i : nat) : Y := fold_left (fun y s => yp s (smin s) (smax s) y) (firstn i l) left.
Definition Rf (right : Y) (i : nat) : Y := fold_left (fun y s => yp s (smax s) (smin s) y) (rev (skipn i l)) right.

Lemma Lf_S left i s : nth_error l i = Some s -> Lf left (S i) = yp s (smin s) (smax s) (Lf left i).
Proof. intros Hs. unfold Lf. rewrite (firstn_snoc l i s Hs), fold_left_app. reflexivity. Qed.
Lemma Rf_S right i s : nth_error l i = Some s -> Rf right i = yp s (smax s) (smin s) (Rf right (S i)).
Proof. intros Hs. unfold Rf. rewrite (skipn_nth l i s Hs). cbn [rev]. rewrite fold_left_app. reflexivity. Qed.
Lemma Rf_end right : Rf right (length l) = right.
Proof. unfold Rf. rewrite skipn_all. reflexivity. Qed.

Lemma steps_left_val left n : forall k, (k + n <= length l)%nat ->
  steps_left calcT vm l E n (Z.of_nat k) (Lf left k) = Ret (map (Lf left) (seq (S k) n)).
Proof.
  induction n as [|n IH]; intros k Hk; cbn [steps_left]; [reflexivity|].
  destruct (vget_in l (Z.of_nat k) ltac:(lia)) as (s & -> & Es). rewrite Nat2Z.id in Es. cbn [bind].
  rewrite <- (Lf_S left k s Es). replace (Z.of_nat k + 1)%Z with (Z.of_nat (S k)) by lia. rewrite IH by lia. reflexivity.
Qed.
Lemma steps_right_val right n : forall k, (n <= k)%nat -> (k <= length l)%nat ->
  steps_right calcT vm l E n (Z.of_nat k - 1) (Rf right k) = Ret (map (Rf right) (rev (seq (k - n) n))).
Proof.
  induction n as [|n IH]; intros k Hn Hk; cbn [steps_right]; [reflexivity|].
  destruct k as [|k]; [lia|]. replace (Z.of_nat (S k) - 1)%Z with (Z.of_nat k) by lia.
  destruct (vget_in l (Z.of_nat k) ltac:(lia)) as (s & -> & Es). rewrite Nat2Z.id in Es. cbn [bind].
  rewrite <- (Rf_S right k s Es). rewrite IH by lia. cbn [bind]. f_equal.
  replace (S k - S n)%nat with (k - n)%nat by lia.
  rewrite seq_S, rev_app_distr. cbn [rev app map]. f_equal. f_equal. lia.
Qed.
Lemma last_map_seq {A} (f : nat -> A) a n d : (0 < n)%nat -> last (map f (seq a n)) d = f (a + n - 1)%nat.
Proof.
  destruct n as [|n]; [lia|]. intros _. rewrite seq_S, map_app. cbn [map]. rewrite last_last. f_equal. lia.
Qed.

Variable M : nat.
Hypothesis HM : (M < length l)%nat.
Variables left right : Y.
(** The two solutions at the matching point, the ratio and the norm. *)
Definition yl := Lf left (S M).
Definition yr := Rf right (S M).
Definition cl := 1 / norm_of yl yr (ratio yl yr).
Definition cr := ratio yl yr / norm_of yl yr (ratio yl yr).

Lemma steps_val : propagationSteps calcT vm l (Z.of_nat M) E left right =
  Ret (map (fun i => yscale cl (Lf left i)) (seq 0 (S M)) ++ map (fun i => yscale cr (Rf right i)) (seq (S M) (length l - M))).
Proof.
  unfold propagationSteps.
  replace (Z.to_nat (Z.of_nat M + 1)) with (S M) by lia.
  replace (Z.to_nat (Z.of_nat (length l) - 1 - Z.of_nat M)) with (length l - S M)%nat by lia.
  pose proof (steps_left_val left (S M) 0 ltac:(lia)) as SL. change (Z.of_nat 0) with 0%Z in SL.
  change (Lf left 0) with left in SL. rewrite SL. cbn [bind].
  pose proof (steps_right_val right (length l - S M) (length l) ltac:(lia) ltac:(lia)) as SR. rewrite Rf_end in SR. rewrite SR. cbn [bind].
  replace (length l - (length l - S M))%nat with (S M) by lia.
  assert (Eyl : last (map (Lf left) (seq 1 (S M))) left = yl) by (rewrite last_map_seq by lia; unfold yl; f_equal; lia).
  rewrite Eyl.
  assert (Eyr : last (map (Rf right) (rev (seq (S M) (length l - S M)))) right = yr).
  { destruct (length l - S M)%nat as [|k] eqn:Ek.
    - cbn [seq rev map last]. unfold yr. assert (K : S M = length l) by lia. rewrite K. rewrite Rf_end. reflexivity.
    - cbn [seq rev]. rewrite map_app. cbn [map]. rewrite last_last. reflexivity. }
  rewrite Eyr. fold cl cr. f_equal. f_equal.
  - change (left :: map (Lf left) (seq 1 (S M))) with (map (Lf left) (seq 0 (S (S M)))).
    rewrite (seq_S (S M) 0), map_app, firstn_app, map_length, seq_length, Nat.sub_diag, firstn_O, app_nil_r.
    rewrite firstn_all2 by (rewrite map_length, seq_length; lia). apply map_map.
  - replace (rev (right :: map (Rf right) (rev (seq (S M) (length l - S M))))) with (map (Rf right) (seq (S M) (length l - M))).
    + apply map_map.
    + cbn [rev]. rewrite map_rev, rev_involutive. replace (length l - M)%nat with (S (length l - S M)) by lia. rewrite seq_S, map_app. cbn [map].
      replace (S M + (length l - S M))%nat with (length l) by lia. rewrite Rf_end. reflexivity.
Qed.
Definition thesteps := map (fun i => yscale cl (Lf left i)) (seq 0 (S M)) ++ map (fun i => yscale cr (Rf right i)) (seq (S M) (length l - M)).
Lemma steps_length : length thesteps = S (length l).
Proof. unfold thesteps. rewrite app_length, !map_length, !seq_length. lia. Qed.
Lemma nth_map_seq' {A} (f : nat -> A) a n k : (k < n)%nat -> nth_error (map f (seq a n)) k = Some (f (a + k)%nat).
Proof.
  revert a k. induction n as [|n IH]; intros a k Hk; [lia|]. destruct k as [|k]; cbn [seq map nth_error]; [rewrite Nat.add_0_r; reflexivity|].
  rewrite IH by lia. f_equal. f_equal. lia.
Qed.
Lemma steps_nth_l i : (i <= M)%nat -> nth_error thesteps i = Some (yscale cl (Lf left i)).
Proof. intros. unfold thesteps. rewrite nth_error_app1 by (rewrite map_length, seq_length; lia). rewrite nth_map_seq' by lia. reflexivity. Qed.
Lemma steps_nth_r i : (M < i)%nat -> (i <= length l)%nat -> nth_error thesteps i = Some (yscale cr (Rf right i)).
Proof.
  intros. unfold thesteps. rewrite nth_error_app2 by (rewrite map_length, seq_length; lia). rewrite map_length, seq_length.
  rewrite nth_map_seq' by lia. do 2 f_equal. f_equal. lia.
Qed.

Hypothesis Hd : directions_ok l (Z.of_nat M).
Notation efin := (ef_in (ef_prop calcT vm E) l thesteps).
Lemma yp_scale s a b c y : yp s a b (yscale c y) = yscale c (yp s a b y).
Proof. apply (proj2 (yprop_linear calcT vm s E a b true)). Qed.
(** Value computed in sector i at x. *)
Definition val2 (y : Y) : R * R := (y0 y, y1 y).
Lemma efin_l i s x : (i <= M)%nat -> nth_error l i = Some s ->
  efin (Z.of_nat i) x = Ret (val2 (yscale cl (yp s (smin s) x (Lf left i)))).
Proof.
  intros Hi Es. unfold ef_in. destruct (vget_in l (Z.of_nat i)) as (s' & -> & Es'). { split; [lia|]. assert (i < length l)%nat by lia. lia. }
  rewrite Nat2Z.id, Es in Es'. injection Es' as <-. cbn [bind].
  pose proof (Hd i s Es) as D. destruct (Z.leb_spec (Z.of_nat i) (Z.of_nat M)); [|lia]. rewrite D. cbn [dir_eqb].
  destruct (vget_in thesteps (Z.of_nat i)) as (y & -> & Ey). { rewrite steps_length. lia. }
  rewrite Nat2Z.id, steps_nth_l in Ey by lia. injection Ey as <-. cbn [bind]. unfold ef_prop. rewrite yp_scale. reflexivity.
Qed.
Lemma efin_r i s x : (M < i)%nat -> nth_error l i = Some s ->
  efin (Z.of_nat i) x = Ret (val2 (yscale cr (yp s (smax s) x (Rf right (S i))))).
Proof.
  intros Hi Es. assert (i < length l)%nat by (apply nth_error_Some; congruence).
  unfold ef_in. destruct (vget_in l (Z.of_nat i)) as (s' & -> & Es'); [lia|].
  rewrite Nat2Z.id, Es in Es'. injection Es' as <-. cbn [bind].
  pose proof (Hd i s Es) as D. destruct (Z.leb_spec (Z.of_nat i) (Z.of_nat M)); [lia|]. rewrite D. cbn [dir_eqb].
  destruct (vget_in thesteps (Z.of_nat i + 1)) as (y & -> & Ey). { rewrite steps_length. lia. }
  replace (Z.to_nat (Z.of_nat i + 1)) with (S i) in Ey by lia. rewrite steps_nth_r in Ey by lia. injection Ey as <-. cbn [bind]. unfold ef_prop. rewrite yp_scale. reflexivity.
Qed.
Lemma yp_min s y x : x <= smin s -> yp s (smin s) x y = y.
Proof. intros. unfold sprop_y. rewrite yprop_noop by (right; lra). reflexivity. Qed.
Lemma yp_max s y x : smax s <= x -> yp s (smax s) x y = y.
Proof. intros. unfold sprop_y. rewrite yprop_noop by (left; lra). reflexivity. Qed.

(** Neighbouring sectors agree at their common end point, except possibly at the matching point. *)
Lemma agree_l i s s' : (S i <= M)%nat -> nth_error l i = Some s -> nth_error l (S i) = Some s' -> smin s' = smax s ->
  efin (Z.of_nat i) (smax s) = efin (Z.of_nat (S i)) (smin s').
Proof.
  intros Hi Es Es' K. rewrite (efin_l i s), (efin_l (S i) s') by (auto; lia). rewrite (yp_min s') by lra. rewrite (Lf_S left i s Es). reflexivity.
Qed.
Lemma agree_r i s s' : (M < i)%nat -> nth_error l i = Some s -> nth_error l (S i) = Some s' -> smin s' = smax s ->
  efin (Z.of_nat i) (smax s) = efin (Z.of_nat (S i)) (smin s').
Proof.
  intros Hi Es Es' K. rewrite (efin_r i s), (efin_r (S i) s') by (auto; lia). rewrite (yp_max s) by lra. rewrite (Rf_S right (S i) s' Es'). reflexivity.
Qed.
Lemma agree_m s s' : nth_error l M = Some s -> nth_error l (S M) = Some s' ->
  efin (Z.of_nat M) (smax s) = Ret (val2 (yscale cl yl)) /\ efin (Z.of_nat (S M)) (smin s') = Ret (val2 (yscale cr yr)).
Proof.
  intros Es Es'. rewrite (efin_l M s), (efin_r (S M) s') by (auto; lia). unfold yl, yr. rewrite (Lf_S left M s Es), (Rf_S right (S M) s' Es'). auto.
Qed.

Lemma norm_pos : 0 < norm_of yl yr (ratio yl yr).
Proof. unfold norm_of. destruct (Rltb 0 _) eqn:L; [apply Rltb_true in L; apply sqrt_lt_R0; auto|lra]. Qed.

(** The ratio matches the two solutions when the matching error is 0. *)
Lemma ratio_match a b : y1 a * y0 b - y1 b * y0 a = 0 -> nonzero a -> nonzero b ->
  y0 a = ratio a b * y0 b /\ y1 a = ratio a b * y1 b /\ ratio a b <> 0.
Proof.
  intros Z Na Nb. unfold ratio. destruct (Rltb _ _) eqn:L; [apply Rltb_true in L|apply Rltb_false in L].
  - assert (B0 : y0 b <> 0).
    { intros K. rewrite K in *. assert (Y : y1 b * y0 a = 0) by lra. assert (y1 b <> 0) by (destruct Nb; congruence).
      assert (y0 a = 0) by (apply Rmult_integral in Y; tauto). rewrite H0 in L. rewrite !Rabs_R0 in L. pose proof (Rabs_pos (y1 b)). pose proof (Rabs_pos (y1 a)). lra. }
    split; [field; auto|]. split.
    + apply (Rmult_eq_reg_r (y0 b)); auto. field_simplify; [|auto]. lra.
    + intros K. assert (A0 : y0 a = 0). { replace (y0 a) with (y0 a / y0 b * y0 b) by (field; auto). rewrite K; ring. }
      rewrite A0 in Z. assert (Y : y1 a * y0 b = 0) by lra. apply Rmult_integral in Y. destruct Y; [|congruence]. destruct Na; congruence.
  - assert (B1 : y1 b <> 0).
    { intros K. rewrite K in *. assert (Y : y1 a * y0 b = 0) by lra. assert (B0 : y0 b <> 0) by (destruct Nb; congruence).
      assert (A1 : y1 a = 0) by (apply Rmult_integral in Y; tauto). rewrite A1 in L. rewrite !Rabs_R0 in L. pose proof (Rabs_pos_lt (y0 b) B0). pose proof (Rabs_pos (y0 a)). lra. }
    split; [|split; [field; auto|]].
    + apply (Rmult_eq_reg_r (y1 b)); auto. field_simplify; [|auto]. lra.
    + intros K. assert (A1 : y1 a = 0). { replace (y1 a) with (y1 a / y1 b * y1 b) by (field; auto). rewrite K; ring. }
      rewrite A1 in Z. assert (Y : y1 b * y0 a = 0) by lra. apply Rmult_integral in Y. destruct Y; [congruence|]. destruct Na; congruence.
Qed.
Lemma match_vals : y1 yl * y0 yr - y1 yr * y0 yl = 0 -> nonzero yl -> nonzero yr -> val2 (yscale cl yl) = val2 (yscale cr yr).
Proof.
  intros Z Na Nb. destruct (ratio_match yl yr Z Na Nb) as (A & B & _). pose proof norm_pos as NP.
  unfold val2, yscale; cbn [y0 y1]. unfold cl, cr. set (r := ratio yl yr) in *. set (n := norm_of yl yr r) in *. rewrite A, B. f_equal; field; lra.
Qed.
End Steps.
