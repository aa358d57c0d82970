(** The increment computed by pruferHelper is the change of a continuous angle. *)
From Coq Require Import Reals ZArith Lra Lia.
From Coquelicot Require Import Coquelicot.
From Coq Require Import List.
From Verif Require Import Base M_Sectors M_Core S_Core P_Prufer S_Formulas P_Terms2 S_Zeros P_Lift P_Lift2 P_Cross P_Global2 P_Step.
Import ListNotations.
Open Scope R_scope.

Lemma mult_pi_shift : forall k, multiple_of_pi (IZR k * PI).
Proof. intro k. exists k. reflexivity. Qed.

(** oscillatory branch *)
Lemma osc_pre : forall w d t0 ps x, 0 < w -> - (PI / 2) < ps <= PI / 2 -> multiple_of_pi (ps - x) ->
  let pb := w * d + t0 in let pb := pb - IZR (Int_part (pb / PI)) * PI in let t1 := ps - pb in
  let t1 := if Rltb t1 (- PI / 2) then t1 + PI else if Rltb (PI / 2) t1 then t1 - PI else t1 in
  let t1 := t1 + (t0 + w * d) in
  multiple_of_pi (t1 - x) /\ - (PI / 2) <= t1 - (t0 + w * d) <= PI / 2.
Proof.
  intros w d t0 ps x Hw Hps Hx. cbv zeta. pose proof PIpos as HP.
  set (P := w * d + t0). pose proof (flr_spec P) as F. fold (flr P). set (k := flr P) in *.
  split.
  - destruct Hx as [m Em].
    destruct (Rltb (ps - (P - IZR k * PI)) (- PI / 2)); [|destruct (Rltb (PI / 2) (ps - (P - IZR k * PI)))].
    + exists (m + k + 1)%Z. rewrite !plus_IZR. replace (t0 + w * d) with P by (unfold P; ring). lra.
    + exists (m + k - 1)%Z. rewrite minus_IZR, plus_IZR. replace (t0 + w * d) with P by (unfold P; ring). lra.
    + exists (m + k)%Z. rewrite plus_IZR. replace (t0 + w * d) with P by (unfold P; ring). lra.
  - destruct (Rltb (ps - (P - IZR k * PI)) (- PI / 2)) eqn:B1; [|destruct (Rltb (PI / 2) (ps - (P - IZR k * PI))) eqn:B2].
    + apply Rltb_true in B1. lra.
    + apply Rltb_true in B2. apply Rltb_false in B1. lra.
    + apply Rltb_false in B1, B2. lra.
Qed.

Lemma osc_step : forall vm s E d ya yb t1 w, v0 s < E -> w = sqrt (E - v0 s) -> 0 <= d -> nonzero yb ->
  is_angle w t1 yb -> let t0 := atan_safe (y0 ya * w) (y1 ya) in t0 <= t1 ->
  (w * d < PI / 2 /\ t1 < t0 + PI) \/ Rabs (t1 - t0 - w * d) < PI / 2 ->
  prufer vm s E d ya yb = rescale t1 (scaling vm E / w) - rescale t0 (scaling vm E / w).
Proof.
  intros vm s E d ya yb t1 w HE Ew Hd Hnz Hang t0 Hle Hcase. pose proof PIpos as HP.
  assert (0 < w) as Hw by (rewrite Ew; apply sqrt_lt_R0; lra).
  unfold prufer. rewrite (proj2 (Rltb_true _ _) HE). rewrite <- Ew. cbv zeta. fold t0.
  set (ps := atan_safe (y0 yb * w) (y1 yb)).
  assert (multiple_of_pi (ps - t1)) as Mp.
  { apply (angle_diff w ps t1 yb); [lra|exact Hnz| |exact Hang]. unfold is_angle, ps. rewrite (Rmult_comm w (y0 yb)). apply atan_safe_angle. }
  destruct (osc_pre w d t0 ps t1 Hw (atan_safe_range _ _) Mp) as [M1 M2]. cbv zeta in M1, M2.
  match type of M1 with multiple_of_pi (?X - _) => set (pre := X) in * end. assert (0 <= w * d) as Hwd by (apply Rmult_le_pos; lra).
  assert ((if Rltb pre t0 then pre + PI else pre) = t1) as F; [|rewrite F; reflexivity].
  assert (multiple_of_pi (pre + PI - t1)) as M1' by (replace (pre + PI - t1) with ((pre - t1) + IZR 1 * PI) by ring; apply mult_pi_plus; [exact M1|apply mult_pi_shift]).
  destruct Hcase as [[C1 C2]|C].
  - destruct (Rltb pre t0) eqn:B; [apply Rltb_true in B|apply Rltb_false in B].
    + enough (pre + PI - t1 = 0) by lra. apply mult_pi_small; [exact M1'|]. lra.
    + enough (pre - t1 = 0) by lra. apply mult_pi_small; [exact M1|]. lra.
  - assert (pre - t1 = 0) as E0. { apply mult_pi_small; [exact M1|]. apply Rabs_def2 in C. lra. }
    destruct (Rltb pre t0) eqn:B; [apply Rltb_true in B; lra|lra].
Qed.

(** exponential branch *)
Lemma sin_neg_range : forall x, - PI < x < 0 -> sin x < 0.
Proof. intros x H. pose proof (sin_gt_0 (- x) ltac:(lra) ltac:(lra)) as S. rewrite sin_neg in S. lra. Qed.
Lemma sin_pos_range : forall x, 0 < x < PI -> 0 < sin x.
Proof. intros x H. apply sin_gt_0; lra. Qed.
Lemma sin_neg_range2 : forall x, PI < x < 2 * PI -> sin x < 0.
Proof. intros x H. pose proof (sin_gt_0 (x - PI) ltac:(lra) ltac:(lra)) as S. rewrite sin_minus_PI in S. lra. Qed.

Lemma sign_prod : forall cp cq sc a b x y, 0 < cp * cq -> 0 < sc -> sc * x = cp * a -> sc * y = cq * b -> (0 <= x * y <-> 0 <= a * b).
Proof.
  intros cp cq sc a b x y Hc Hs Ex Ey.
  assert ((sc * sc) * (x * y) = (cp * cq) * (a * b)) as E by (transitivity ((sc * x) * (sc * y)); [ring|rewrite Ex, Ey; ring]).
  assert (0 < sc * sc) by nra. split; intro H0.
  - destruct (Rle_lt_dec 0 (a * b)) as [|L]; [assumption|]. assert (0 <= sc * sc * (x * y)) by (apply Rmult_le_pos; lra). nra.
  - destruct (Rle_lt_dec 0 (x * y)) as [|L]; [assumption|]. assert (0 <= cp * cq * (a * b)) by (apply Rmult_le_pos; lra). nra.
Qed.

Lemma exp_step : forall vm s E d ya yb t1 cp cq, E <= v0 s -> nonzero yb -> let sc := scaling vm E in let t0 := atan_safe (sc * y0 ya) (y1 ya) in
  is_angle sc t1 yb -> 0 < cp * cq -> sc * y0 ya = cp * sin t0 -> sc * y0 yb = cq * sin t1 ->
  - PI < t1 -> (0 <= t0 -> 0 < t1) -> t1 < t0 + PI ->
  prufer vm s E d ya yb = t1 - t0.
Proof.
  intros vm s E d ya yb t1 cp cq HE Hnz sc t0 Hang Hc Ep Eq L1 L2 L3. pose proof PIpos as HP.
  pose proof (scaling_pos vm E) as HS. fold sc in HS.
  unfold prufer. rewrite (proj2 (Rltb_false _ _)) by lra. fold sc. cbv zeta. fold t0.
  set (th := atan_safe (sc * y0 yb) (y1 yb)).
  assert (multiple_of_pi (th - t1)) as Mp by (apply (angle_diff sc th t1 yb); [lra|exact Hnz|apply atan_safe_angle|exact Hang]).
  pose proof (atan_safe_range (sc * y0 ya) (y1 ya)) as R0. fold t0 in R0. pose proof (atan_safe_range (sc * y0 yb) (y1 yb)) as R1. fold th in R1.
  pose proof (sign_prod cp cq sc (sin t0) (sin t1) (y0 ya) (y0 yb) Hc HS Ep Eq) as SP.
  assert (th = t1 \/ th = t1 + PI \/ th = t1 - PI) as Th.
  { destruct Mp as [k Ek]. assert (-2 < k < 2)%Z as Hk by (split; apply lt_IZR; apply (Rmult_lt_reg_r PI); lra).
    assert (k = 0 \/ k = 1 \/ k = -1)%Z as [-> | [-> | ->]] by lia; lra. }
  match goal with |- ?X - t0 = _ => enough (X = t1) by lra end.
  destruct (Rle_lt_dec 0 t0) as [P0|P0].
  - specialize (L2 P0). assert (0 <= sin t0) as S0 by (apply sin_ge_0; lra).
    destruct (Rle_lt_dec t1 PI) as [C1|C1].
    + assert (0 <= sin t1) as S1 by (apply sin_ge_0; lra).
      rewrite (proj2 (Rleb_true 0 (y0 ya * y0 yb))) by (apply SP, Rmult_le_pos; assumption).
      assert ((if Reqb t0 0 then 1%Z else signI t0) = 1%Z) as ->.
      { destruct (Reqb t0 0) eqn:B; [reflexivity|]. apply Reqb_false in B. assert (0 < t0) by (destruct P0; [assumption|congruence]). unfold signI. rewrite (proj2 (Rltb_true 0 t0)) by lra. reflexivity. }
      destruct (Rle_lt_dec t1 (PI / 2)) as [C2|C2].
      * assert (th = t1) as Et by lra. rewrite (proj2 (Reqb_false th 0)) by lra. unfold signI. rewrite (proj2 (Rltb_true 0 th)) by lra. cbn. exact Et.
      * assert (th = t1 - PI) as Et by lra.
        assert ((if Reqb th 0 then (-1)%Z else signI th) = (-1)%Z) as ->.
        { destruct (Reqb th 0) eqn:B; [reflexivity|]. apply Reqb_false in B. assert (th < 0) by (destruct (Rle_lt_or_eq_dec th 0); [lra|assumption|contradiction]). unfold signI. rewrite (proj2 (Rltb_false 0 th)) by lra. rewrite (proj2 (Rltb_true th 0)) by lra. reflexivity. }
        cbn. lra.
    + assert (0 < t0) by lra. assert (th = t1 - PI) as Et by lra.
      assert (0 < sin t0) by (apply sin_pos_range; lra). assert (sin t1 < 0) by (apply sin_neg_range2; lra).
      rewrite (proj2 (Rleb_false 0 (y0 ya * y0 yb))).
      * rewrite (proj2 (Rltb_true 0 (t0 * th))) by (apply Rmult_lt_0_compat; lra). lra.
      * destruct (Rlt_le_dec (y0 ya * y0 yb) 0) as [|G]; [assumption|]. apply SP in G. nra.
  - clear L2. assert (sin t0 < 0) as S0 by (apply sin_neg_range; lra).
    destruct (Rle_lt_dec t1 0) as [C1|C1].
    + assert (0 <= sin t0 * sin t1) as SS.
      { destruct C1 as [C1| ->]; [|rewrite sin_0; lra]. assert (sin t1 < 0) by (apply sin_neg_range; lra). nra. }
      rewrite (proj2 (Rleb_true 0 (y0 ya * y0 yb))) by (apply SP; exact SS).
      assert ((if Reqb t0 0 then 1%Z else signI t0) = (-1)%Z) as ->.
      { rewrite (proj2 (Reqb_false t0 0)) by lra. unfold signI. rewrite (proj2 (Rltb_false 0 t0)), (proj2 (Rltb_true t0 0)) by lra. reflexivity. }
      destruct (Rle_lt_dec t1 (- (PI / 2))) as [C2|C2].
      * assert (th = t1 + PI) as Et by lra. rewrite (proj2 (Reqb_false th 0)) by lra. unfold signI. rewrite !(proj2 (Rltb_true 0 th)) by lra. cbn. lra.
      * assert (th = t1) as Et by lra.
        assert ((if Reqb th 0 then (-1)%Z else signI th) = (-1)%Z) as Es.
        { destruct (Reqb th 0) eqn:B; [reflexivity|]. apply Reqb_false in B. assert (th < 0) by (destruct (Rle_lt_or_eq_dec th 0); [lra|assumption|contradiction]). unfold signI. rewrite (proj2 (Rltb_false 0 th)) by lra. rewrite (proj2 (Rltb_true th 0)) by lra. reflexivity. }
        rewrite Es. cbn. exact Et.
    + assert (0 < sin t1) as S1 by (apply sin_pos_range; lra).
      rewrite (proj2 (Rleb_false 0 (y0 ya * y0 yb))).
      * destruct (Rle_lt_dec t1 (PI / 2)) as [C2|C2].
        -- assert (th = t1) as Et by lra. rewrite (proj2 (Rltb_false 0 (t0 * th))) by nra. exact Et.
        -- assert (th = t1 - PI) as Et by lra. rewrite (proj2 (Rltb_true 0 (t0 * th))) by nra. lra.
      * destruct (Rlt_le_dec (y0 ya * y0 yb) 0) as [|G]; [assumption|]. apply SP in G. nra.
Qed.

(** ---- both *)
Lemma root_choice : forall A d, 0 <= A -> 0 < d -> A * (d * d) < PI * PI / 2 -> exists m, 0 < m /\ A <= m * m /\ m * d < PI.
Proof.
  intros A d HA Hd H. pose proof PI_3 as P3 || idtac. assert (3 < PI) as P3'. { pose proof PI2_3_2. unfold PI2 in *. lra. }
  set (e := 1 / (d * d)). assert (0 < d * d) by nra. assert (0 < e) as He by (unfold e; apply Rdiv_lt_0_compat; lra).
  exists (sqrt (A + e)). split; [apply sqrt_lt_R0; lra|]. split; [rewrite sqrt_sqrt by lra; lra|].
  apply Rsqr_incrst_0; [|apply Rmult_le_pos; [apply sqrt_pos|lra]|lra]. unfold Rsqr.
  replace (sqrt (A + e) * d * (sqrt (A + e) * d)) with ((sqrt (A + e) * sqrt (A + e)) * (d * d)) by ring. rewrite sqrt_sqrt by lra.
  replace ((A + e) * (d * d)) with (A * (d * d) + 1) by (unfold e; field; lra). nra.
Qed.

Theorem step_angle : forall vm s E V D z z' p q phi ya yb, p < q -> sol_on V E p q z z' -> nowhere_zero z z' p q -> ang (scaling vm E) z z' p q phi ->
  (forall x, p < x < q -> Rabs (V x - v0 s) <= D) -> D * ((q - p) * (q - p)) < PI * PI / 4 -> (v0 s < E -> phi p <= phi q) ->
  y0 ya = z p -> y1 ya = z' p -> y0 yb = z q -> y1 yb = z' q ->
  prufer vm s E (q - p) ya yb = phi q - phi p.
Proof.
  intros vm s E V D z z' p q phi ya yb Hpq Hsol N A HV HD Hmon A0 A1 B0 B1. pose proof PIpos as HP. pose proof (scaling_pos vm E) as HS.
  set (sc := scaling vm E) in *. set (d := q - p) in *. assert (0 < d) as Hd by (unfold d; lra).
  assert (0 <= D) as D0 by (eapply Rle_trans; [apply Rabs_pos|apply (HV ((p + q) / 2)); lra]).
  assert (nonzero yb) as Nb by (unfold nonzero; rewrite B0, B1; apply N; lra).
  pose proof (sol_cont _ _ _ _ _ _ Hsol) as C.
  destruct (Rlt_le_dec (v0 s) E) as [HE|HE].
  - set (w := sqrt (E - v0 s)). assert (0 < w) as Hw by (apply sqrt_lt_R0; lra).
    assert (w * w = E - v0 s) as Ww by (apply sqrt_sqrt; lra).
    set (t0 := atan_safe (y0 ya * w) (y1 ya)).
    destruct (ang_exists w z z' p q t0 ltac:(lra) Hw C N) as (psi & Apsi & Epsi).
    { unfold t0. rewrite <- A0, <- A1. rewrite (Rmult_comm w (y0 ya)). apply atan_safe_angle. }
    pose proof (change_le w sc z z' p q psi phi Hw HS N Apsi A ltac:(lra) (Hmon HE)) as Hle. rewrite Epsi in Hle.
    rewrite (ang_change w sc z z' p q psi phi Hw HS N Apsi A ltac:(lra)). rewrite Epsi.
    apply osc_step; try assumption; [reflexivity|lra| |].
    + unfold is_angle. rewrite B0, B1. apply Apsi. lra.
    + fold t0. destruct (Rlt_le_dec (w * d) (PI / 2)) as [L|L].
      * left. split; [exact L|]. rewrite <- Epsi.
        assert (w * w * (d * d) < PI * PI / 4) as Hq.
        { replace (w * w * (d * d)) with ((w * d) * (w * d)) by ring. assert (0 <= w * d) by (apply Rmult_le_pos; lra). nra. }
        destruct (root_choice (w * w + D) d ltac:(nra) Hd ltac:(lra)) as (m & Hm & Hm2 & Hmd).
        assert (exists th, m * z p * cos th = z' p * sin th) as [th Hth] by (exists (atan_safe (m * z p) (z' p)); apply atan_safe_angle).
        destruct (ang_exists m z z' p q th ltac:(lra) Hm C N Hth) as (om & Aom & _).
        apply (change_lt_pi w m z z' p q psi om); try assumption; [lra|].
        pose proof (ang_advance V E m z z' p q om Hm Hsol N Aom ltac:(lra)) as Adv. fold d in Adv. enough (om q - om p <= m * d) by lra. apply Adv.
        intros x Hx. specialize (HV x Hx). apply Rabs_le_between in HV. lra.
      * right. rewrite <- Epsi. pose proof (ang_speed V E (v0 s) w D z z' p q psi Hw Ww Hsol N Apsi ltac:(lra) HV) as Sp. fold d in Sp.
        eapply Rle_lt_trans; [exact Sp|]. apply (Rmult_lt_reg_r (w * d)); [apply Rmult_lt_0_compat; assumption|].
        replace (D / w * d * (w * d)) with (D * (d * d)) by (field; lra). apply Rlt_le_trans with (PI / 2 * (PI / 2)); [lra|]. apply Rmult_le_compat_l; lra.
  - set (t0 := atan_safe (sc * y0 ya) (y1 ya)).
    destruct (ang_exists sc z z' p q t0 ltac:(lra) HS C N) as (psi & Apsi & Epsi).
    { unfold t0. rewrite <- A0, <- A1. apply atan_safe_angle. }
    assert (phi q - phi p = psi q - psi p) as ->.
    { apply (lift_unique (fun x => sc * z x) z' p q phi psi); [apply (scaled_nz sc z z' p q); assumption|assumption|assumption|lra]. }
    rewrite Epsi. destruct (ang_polar sc z z' p q psi HS C N Apsi) as (c & Hc).
    destruct (Hc p ltac:(lra)) as (_ & P1 & _). destruct (Hc q ltac:(lra)) as (Q0 & Q1 & _).
    pose proof (ang_level V E sc z z' p q psi HS Hsol N Apsi) as Lev.
    pose proof (atan_safe_range (sc * y0 ya) (y1 ya)) as R0. fold t0 in R0.
    apply (exp_step vm s E d ya yb (psi q) (c p) (c q)); try assumption; fold sc; fold t0.
    + unfold is_angle. rewrite B0, B1. apply Apsi. lra.
    + rewrite A0, P1, Epsi. reflexivity.
    + rewrite B0, Q1. reflexivity.
    + replace (- PI) with (IZR (-1) * PI) by ring. apply Lev; [lra|]. rewrite Epsi. lra.
    + intro H0. replace 0 with (IZR 0 * PI) by ring. apply Lev; [lra|]. rewrite Epsi. lra.
    + rewrite <- Epsi. destruct (root_choice D d D0 Hd ltac:(nra)) as (m & Hm & Hm2 & Hmd).
      assert (exists th, m * z p * cos th = z' p * sin th) as [th Hth] by (exists (atan_safe (m * z p) (z' p)); apply atan_safe_angle).
      destruct (ang_exists m z z' p q th ltac:(lra) Hm C N Hth) as (om & Aom & _).
      apply (change_lt_pi sc m z z' p q psi om); try assumption; [lra|].
      pose proof (ang_advance V E m z z' p q om Hm Hsol N Aom ltac:(lra)) as Adv. fold d in Adv. enough (om q - om p <= m * d) by lra. apply Adv.
      intros x Hx. specialize (HV x Hx). apply Rabs_le_between in HV. lra.
Qed.
