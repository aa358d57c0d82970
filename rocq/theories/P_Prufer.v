(** Angles: atan_safe, rescale, theta0 and prufer. *)
From Coq Require Import Reals ZArith List Lra Lia Psatz Bool.
From Coquelicot Require Import Coquelicot.
From Verif Require Import Base M_Sectors M_Core S_Core.
Open Scope R_scope.

Lemma PIpos : 0 < PI. Proof. exact PI_RGT_0. Qed.
Lemma atan_pos_cos x : 0 < cos (atan x).
Proof. apply cos_gt_0; destruct (atan_bound x); lra. Qed.
Lemma sin_atan x : sin (atan x) = x * cos (atan x).
Proof.
  pose proof (tan_atan x) as T. unfold tan in T. pose proof (atan_pos_cos x).
  rewrite <- T at 2. field. lra.
Qed.
Lemma cos_plus_PI x : cos (x + PI) = - cos x. Proof. apply neg_cos. Qed.
Lemma sin_plus_PI x : sin (x + PI) = - sin x. Proof. apply neg_sin. Qed.
Lemma cos_minus_PI x : cos (x - PI) = - cos x.
Proof. replace (cos x) with (cos (x - PI + PI)) by (f_equal; ring). rewrite cos_plus_PI. ring. Qed.
Lemma sin_minus_PI x : sin (x - PI) = - sin x.
Proof. replace (sin x) with (sin (x - PI + PI)) by (f_equal; ring). rewrite sin_plus_PI. ring. Qed.

Lemma atan_safe_val y x :
  atan_safe y x = if Reqb x 0 then (if Reqb y 0 then 0 else PI / 2) else atan (y / x).
Proof.
  pose proof PIpos. pose proof (atan_bound (y / x)) as [B1 B2].
  unfold atan_safe, atan2.
  destruct (Rltb 0 x) eqn:X1; [apply Rltb_true in X1|apply Rltb_false in X1].
  - destruct (Reqb x 0) eqn:X0; [apply Reqb_true in X0; lra|].
    destruct (Rltb (PI / 2) (atan (y / x))) eqn:A; [apply Rltb_true in A; lra|].
    destruct (Rleb (atan (y / x)) (- (PI / 2))) eqn:C; [apply Rleb_true in C; lra|reflexivity].
  - destruct (Rltb x 0) eqn:X2; [apply Rltb_true in X2|apply Rltb_false in X2].
    + destruct (Reqb x 0) eqn:X0; [apply Reqb_true in X0; lra|].
      destruct (Rleb 0 y) eqn:Y0; [apply Rleb_true in Y0|apply Rleb_false in Y0].
      * destruct (Rltb (PI / 2) (atan (y / x) + PI)) eqn:A; [ring|apply Rltb_false in A; lra].
      * assert (0 < y / x). { replace (y / x) with ((- y) * / (- x)) by (field; lra). apply Rmult_lt_0_compat; [lra|]. apply Rinv_0_lt_compat; lra. }
        assert (0 < atan (y / x)). { rewrite <- atan_0. apply atan_increasing; auto. }
        destruct (Rltb (PI / 2) (atan (y / x) - PI)) eqn:A; [apply Rltb_true in A; lra|].
        destruct (Rleb (atan (y / x) - PI) (- (PI / 2))) eqn:C; [ring|apply Rleb_false in C; lra].
    + assert (x = 0) by lra. subst x. destruct (Reqb 0 0) eqn:X0; [|apply Reqb_false in X0; lra].
      destruct (Rltb 0 y) eqn:Y0; [apply Rltb_true in Y0|apply Rltb_false in Y0].
      * destruct (Reqb y 0) eqn:Y2; [apply Reqb_true in Y2; lra|].
        destruct (Rltb (PI / 2) (PI / 2)) eqn:A; [apply Rltb_true in A; lra|].
        destruct (Rleb (PI / 2) (- (PI / 2))) eqn:C; [apply Rleb_true in C; lra|reflexivity].
      * destruct (Rltb y 0) eqn:Y1; [apply Rltb_true in Y1|apply Rltb_false in Y1].
        -- destruct (Reqb y 0) eqn:Y2; [apply Reqb_true in Y2; lra|].
           destruct (Rltb (PI / 2) (- (PI / 2))) eqn:A; [apply Rltb_true in A; lra|].
           destruct (Rleb (- (PI / 2)) (- (PI / 2))) eqn:C; [lra|apply Rleb_false in C; lra].
        -- destruct (Reqb y 0) eqn:Y2; [|apply Reqb_false in Y2; lra].
           destruct (Rltb (PI / 2) 0) eqn:A; [apply Rltb_true in A; lra|].
           destruct (Rleb 0 (- (PI / 2))) eqn:C; [apply Rleb_true in C; lra|reflexivity].
Qed.

Lemma atan_safe_range y x : - (PI / 2) < atan_safe y x <= PI / 2.
Proof.
  pose proof PIpos. rewrite atan_safe_val. destruct (Reqb x 0); [destruct (Reqb y 0); lra|].
  destruct (atan_bound (y / x)); lra.
Qed.
Lemma atan_safe_angle y x : y * cos (atan_safe y x) = x * sin (atan_safe y x).
Proof.
  rewrite atan_safe_val. destruct (Reqb x 0) eqn:X; [apply Reqb_true in X; subst|apply Reqb_false in X].
  - destruct (Reqb y 0) eqn:Y0; [apply Reqb_true in Y0; subst; ring|]. rewrite cos_PI2. ring.
  - rewrite sin_atan. field. auto.
Qed.
Lemma atan_safe_scale c y x : c <> 0 -> atan_safe (c * y) (c * x) = atan_safe y x.
Proof.
  intros Hc. rewrite !atan_safe_val.
  destruct (Reqb x 0) eqn:X; [apply Reqb_true in X; subst|apply Reqb_false in X].
  - destruct (Reqb (c * 0) 0) eqn:X2; [|apply Reqb_false in X2; lra].
    destruct (Reqb y 0) eqn:Y0; [apply Reqb_true in Y0; subst|apply Reqb_false in Y0].
    + destruct (Reqb (c * 0) 0) eqn:Y2; [reflexivity|apply Reqb_false in Y2; lra].
    + destruct (Reqb (c * y) 0) eqn:Y2; [apply Reqb_true in Y2|reflexivity]. apply Rmult_integral in Y2. lra.
  - destruct (Reqb (c * x) 0) eqn:X2; [apply Reqb_true in X2; apply Rmult_integral in X2; lra|].
    f_equal. field. auto.
Qed.
(** sign of the angle (for y <> 0): the sign of y * x; 0 iff y = 0. *)
Lemma atan_safe_zero y x : atan_safe y x = 0 <-> y = 0.
Proof.
  rewrite atan_safe_val. pose proof PIpos.
  destruct (Reqb x 0) eqn:X; [|apply Reqb_false in X].
  - destruct (Reqb y 0) eqn:Y0; [apply Reqb_true in Y0|apply Reqb_false in Y0]; split; intros; try lra; auto.
  - split.
    + intros E. rewrite <- (tan_atan (y / x)) in *. apply (f_equal tan) in E. rewrite tan_atan in E. rewrite tan_0 in E. 
      replace y with (y / x * x) by (field; auto). rewrite tan_atan in E. rewrite E. ring.
    + intros ->. replace (0 / x) with 0 by (field; auto). apply atan_0.
Qed.

(** Two angles in (-pi/2, pi/2] of the same non-zero vector are equal. *)
Lemma angle_unique a b x y : - (PI/2) < a <= PI/2 -> - (PI/2) < b <= PI/2 -> (x <> 0 \/ y <> 0) ->
  x * cos a = y * sin a -> x * cos b = y * sin b -> a = b.
Proof.
  intros Ha Hb Hn Ea Eb. pose proof PIpos.
  assert (S : sin (a - b) = 0).
  { rewrite sin_minus. destruct Hn as [Hx|Hy].
    - apply (Rmult_eq_reg_l x); auto.
      transitivity (sin a * (x * cos b) - sin b * (x * cos a)); [ring|]. rewrite Ea, Eb. ring.
    - apply (Rmult_eq_reg_l y); auto.
      transitivity ((y * sin a) * cos b - (y * sin b) * cos a); [ring|]. rewrite <- Ea, <- Eb. ring. }
  destruct (Rlt_le_dec (a - b) 0).
  - assert (sin (a - b) < 0). { apply sin_lt_0_var; lra. } lra.
  - destruct (Req_dec (a - b) 0); [lra|]. assert (0 < sin (a - b)) by (apply sin_gt_0; lra). lra.
Qed.

(** rescale: multiplies the tangent by sigma, continuously. *)
Definition rden (sigma t : R) : R := 1 + (sigma - 1) * sin t * sin t.
Lemma rden_pos sigma t : 0 < sigma -> 0 < rden sigma t.
Proof.
  intros. unfold rden. pose proof (sin2_cos2 t). unfold Rsqr in *.
  replace (1 + (sigma - 1) * sin t * sin t) with (cos t * cos t + sigma * (sin t * sin t)) by nra.
  pose proof (Rle_0_sqr (cos t)) as C; pose proof (Rle_0_sqr (sin t)) as S; unfold Rsqr in *.
  pose proof (Rmult_le_pos _ _ (Rlt_le _ _ H) S) as M.
  destruct (Req_dec (sin t * sin t) 0) as [E|E]; [rewrite E in *; lra|].
  assert (0 < sin t * sin t) by lra. pose proof (Rmult_lt_0_compat _ _ H H1). lra.
Qed.
Lemma rescale_atan t sigma : 0 < sigma -> rescale t sigma = t + atan ((sigma - 1) * sin t * cos t / rden sigma t).
Proof.
  intros H. unfold rescale, atan2. pose proof (rden_pos sigma t H). fold (rden sigma t).
  destruct (Rltb 0 (rden sigma t)) eqn:E; [reflexivity|apply Rltb_false in E; lra].
Qed.
Lemma rescale_sincos t sigma : 0 < sigma ->
  exists k, 0 < k /\ sin (rescale t sigma) = k * (sigma * sin t) /\ cos (rescale t sigma) = k * cos t.
Proof.
  intros H. rewrite rescale_atan by auto. pose proof (rden_pos sigma t H) as D.
  set (f := (sigma - 1) * sin t * cos t / rden sigma t). pose proof (atan_pos_cos f) as P. pose proof (sin_atan f) as S.
  exists (cos (atan f) / rden sigma t). repeat split.
  - unfold Rdiv. apply Rmult_lt_0_compat; auto. apply Rinv_0_lt_compat; auto.
  - rewrite sin_plus, S. unfold f at 2.
    apply (Rmult_eq_reg_r (rden sigma t)); [|lra]. 
    transitivity (cos (atan f) * (sin t * rden sigma t + cos t * ((sigma - 1) * sin t * cos t))); [field; lra|].
    transitivity (cos (atan f) * (sigma * sin t)); [|field; lra]. f_equal.
    unfold rden. pose proof (sin2_cos2 t) as Q. unfold Rsqr in Q.
    replace (cos t * ((sigma - 1) * sin t * cos t)) with ((sigma - 1) * sin t * (cos t * cos t)) by ring.
    replace (cos t * cos t) with (1 - sin t * sin t) by lra. ring.
  - rewrite cos_plus, S. unfold f at 2.
    apply (Rmult_eq_reg_r (rden sigma t)); [|lra]. 
    transitivity (cos (atan f) * (cos t * rden sigma t - sin t * ((sigma - 1) * sin t * cos t))); [field; lra|].
    transitivity (cos (atan f) * cos t); [|field; lra]. f_equal.
    unfold rden. ring.
Qed.
Lemma rescale_near t sigma : 0 < sigma -> - (PI/2) < rescale t sigma - t < PI/2.
Proof. intros H. rewrite rescale_atan by auto. match goal with |- context [atan ?f] => destruct (atan_bound f) end. lra. Qed.

Lemma rescale_safe_range t sigma : 0 < sigma -> - (PI/2) < t <= PI/2 -> - (PI/2) < rescale t sigma <= PI/2.
Proof.
  intros H Ht. pose proof PIpos. destruct (Req_dec t (PI/2)) as [->|N].
  - rewrite rescale_atan by auto. rewrite cos_PI2. rewrite Rmult_0_r. unfold Rdiv. rewrite Rmult_0_l, atan_0. lra.
  - destruct (rescale_sincos t sigma H) as [k [K [_ C]]]. pose proof (rescale_near t sigma H).
    assert (0 < cos t) by (apply cos_gt_0; lra).
    assert (P : 0 < cos (rescale t sigma)) by (rewrite C; apply Rmult_lt_0_compat; auto).
    split; apply Rnot_le_lt || apply Rnot_lt_le; intros Q.
    + assert (cos (rescale t sigma) <= 0). { rewrite <- cos_neg. apply cos_le_0; lra. } lra.
    + assert (cos (rescale t sigma) <= 0). { apply cos_le_0; lra. } lra.
Qed.

Lemma rescale_safe w sc y x : 0 < w -> 0 < sc -> rescale (atan_safe (y * w) x) (sc / w) = atan_safe (sc * y) x.
Proof.
  intros Hw Hs. pose proof (Rdiv_lt_0_compat _ _ Hs Hw) as P.
  destruct (Req_dec y 0) as [Y0|Y0].
  { subst y. rewrite Rmult_0_l, Rmult_0_r. assert (Z : atan_safe 0 x = 0) by (apply atan_safe_zero; auto). rewrite Z.
    rewrite rescale_atan by auto. rewrite sin_0. rewrite Rmult_0_r, Rmult_0_l. unfold Rdiv. rewrite Rmult_0_l, atan_0. ring. }
  apply (angle_unique _ _ (sc * y) x).
  - apply rescale_safe_range; auto. apply atan_safe_range.
  - apply atan_safe_range.
  - left. apply Rmult_integral_contrapositive; split; lra.
  - destruct (rescale_sincos (atan_safe (y * w) x) (sc / w) P) as [k [K [S C]]]. rewrite S, C.
    transitivity (k * (sc / w) * (y * w * cos (atan_safe (y * w) x))); [field; lra|]. rewrite atan_safe_angle. ring.
  - apply atan_safe_angle.
Qed.

Lemma rescale_angle w sc y x t : 0 < w -> 0 < sc -> y * w * cos t = x * sin t ->
  sc * y * cos (rescale t (sc / w)) = x * sin (rescale t (sc / w)).
Proof.
  intros Hw Hs E. pose proof (Rdiv_lt_0_compat _ _ Hs Hw) as P.
  destruct (rescale_sincos t (sc / w) P) as [k [K [S C]]]. rewrite S, C.
  transitivity (k * (sc / w) * (y * w * cos t)); [field; lra|]. rewrite E. ring.
Qed.

Lemma is_derive_rescale sigma t : 0 < sigma ->
  is_derive (fun t => t + atan ((sigma - 1) * sin t * cos t / rden sigma t)) t
    (sigma / (cos t * cos t + sigma * sigma * (sin t * sin t))).
Proof.
  intros H. pose proof (rden_pos sigma t H) as D. unfold rden in *.
  auto_derive; [lra|].
  pose proof (sin2_cos2 t) as Q. unfold Rsqr in Q.
  set (s := sin t) in *; set (c := cos t) in *.
  assert (C2 : c * c = 1 - s * s) by lra.
  assert (D2 : 0 < c * c + sigma * sigma * (s * s)).
  { pose proof (rden_pos (sigma * sigma) t ltac:(nra)) as W. unfold rden in W. fold s in W. replace (c * c + sigma * sigma * (s * s)) with (1 + (sigma * sigma - 1) * s * s) by (rewrite C2; ring). exact W. }
  replace (1 + ((sigma - 1) * s * c * / (1 + (sigma - 1) * s * s)) * (((sigma - 1) * s * c * / (1 + (sigma - 1) * s * s)) * 1))
    with ((c * c + sigma * sigma * (s * s)) / ((1 + (sigma - 1) * s * s) * (1 + (sigma - 1) * s * s))).
  2:{ field_simplify_eq; [|lra]. replace (c ^ 2) with (1 - s * s) by (rewrite <- C2; ring). ring. }
  field_simplify_eq.
  2:{ repeat split; try lra. }
  replace (c ^ 4) with ((1 - s * s) * (1 - s * s)) by (rewrite <- C2; ring).
  replace (c ^ 2) with (1 - s * s) by (rewrite <- C2; ring). ring.
Qed.

Lemma rescale_mono sigma a b : 0 < sigma -> a <= b -> rescale a sigma <= rescale b sigma.
Proof.
  intros H [L| -> ]; [|lra]. left. rewrite !rescale_atan by auto.
  set (f := fun t => t + atan ((sigma - 1) * sin t * cos t / rden sigma t)).
  change (f a < f b).
  destruct (MVT_gen f a b (fun t => sigma / (cos t * cos t + sigma * sigma * (sin t * sin t)))) as [c [_ Ec]].
  - intros t _. apply is_derive_rescale; auto.
  - intros t _. apply continuity_pt_filterlim. apply @ex_derive_continuous. eexists. apply is_derive_rescale; auto.
  - assert (0 < sigma / (cos c * cos c + sigma * sigma * (sin c * sin c)) ).
    { apply Rdiv_lt_0_compat; auto. pose proof (rden_pos (sigma * sigma) c ltac:(nra)) as W. unfold rden in W. pose proof (sin2_cos2 c) as Q. unfold Rsqr in Q.
      replace (cos c * cos c) with (1 - sin c * sin c) by lra. lra. }
    pose proof (Rmult_lt_0_compat _ _ H0 (Rlt_Rminus _ _ L)). lra.
Qed.

Lemma sincos_shift t k : exists e, (e = 1 \/ e = -1) /\ sin (t + IZR k * PI) = e * sin t /\ cos (t + IZR k * PI) = e * cos t.
Proof.
  revert t. induction k using Z.peano_ind; intros t.
  - exists 1. split; auto. rewrite Rmult_0_l, Rplus_0_r. split; ring.
  - destruct (IHk (t + PI)) as [e [He [S C]]].
    rewrite succ_IZR. replace (t + (IZR k + 1) * PI) with (t + PI + IZR k * PI) by ring.
    exists (- e). split; [destruct He as [-> | ->]; [right|left]; lra|].
    rewrite S, C, sin_plus_PI, cos_plus_PI. split; ring.
  - destruct (IHk (t - PI)) as [e [He [S C]]].
    unfold Z.pred. rewrite plus_IZR. replace (t + (IZR k + -1) * PI) with (t - PI + IZR k * PI) by ring.
    exists (- e). split; [destruct He as [-> | ->]; [right|left]; lra|].
    rewrite S, C, sin_minus_PI, cos_minus_PI. split; ring.
Qed.
Lemma rescale_shift t k sigma : rescale (t + IZR k * PI) sigma = rescale t sigma + IZR k * PI.
Proof.
  unfold rescale. destruct (sincos_shift t k) as [e [He [-> ->]]].
  replace ((sigma - 1) * (e * sin t) * (e * cos t)) with ((e * e) * ((sigma - 1) * sin t * cos t)) by ring.
  replace (1 + (sigma - 1) * (e * sin t) * (e * sin t)) with (1 + (e * e) * ((sigma - 1) * sin t * sin t)) by ring.
  replace (e * e) with 1 by (destruct He; subst; ring). rewrite !Rmult_1_l. ring.
Qed.
Lemma is_angle_shift s t k y : is_angle s t y -> is_angle s (t + IZR k * PI) y.
Proof.
  unfold is_angle. destruct (sincos_shift t k) as [e [He [-> ->]]]. intros H.
  transitivity (e * (s * y0 y * cos t)); [ring|]. rewrite H. ring.
Qed.

Lemma scaling_pos vm E : 0 < scaling vm E.
Proof. unfold scaling. destruct (Rltb 1 (E - vm)) eqn:H; [|lra]. apply Rltb_true in H. apply sqrt_lt_R0. lra. Qed.

Lemma theta0_val vm s E y : theta0 vm s E y = atan_safe (scaling vm E * y0 y) (y1 y).
Proof.
  unfold theta0. destruct (Rltb (v0 s) E) eqn:H; [|reflexivity]. apply Rltb_true in H.
  apply rescale_safe; [apply sqrt_lt_R0; lra|apply scaling_pos].
Qed.
Lemma theta0_angle vm s E y : is_angle (scaling vm E) (theta0 vm s E y) y.
Proof. rewrite theta0_val. apply atan_safe_angle. Qed.

(** The increment reported by prufer, when added to an angle of ya, gives an angle of yb. *)
Lemma prufer_angle vm s E d ya yb : exists ta tb k,
  prufer vm s E d ya yb = tb - ta + IZR k * PI /\
  ta = atan_safe (scaling vm E * y0 ya) (y1 ya) /\ tb = atan_safe (scaling vm E * y0 yb) (y1 yb).
Proof.
  exists (atan_safe (scaling vm E * y0 ya) (y1 ya)), (atan_safe (scaling vm E * y0 yb) (y1 yb)).
  assert (HH : forall x k, prufer vm s E d ya yb = x + IZR k * PI -> x = atan_safe (scaling vm E * y0 yb) (y1 yb) - atan_safe (scaling vm E * y0 ya) (y1 ya) ->
     exists k, prufer vm s E d ya yb = atan_safe (scaling vm E * y0 yb) (y1 yb) - atan_safe (scaling vm E * y0 ya) (y1 ya) + IZR k * PI /\
      atan_safe (scaling vm E * y0 ya) (y1 ya) = atan_safe (scaling vm E * y0 ya) (y1 ya) /\ atan_safe (scaling vm E * y0 yb) (y1 yb) = atan_safe (scaling vm E * y0 yb) (y1 yb)).
  { intros x k H1 ->. exists k. auto. }
  unfold prufer in *. destruct (Rltb (v0 s) E) eqn:H.
  - apply Rltb_true in H. assert (W : 0 < sqrt (E - v0 s)) by (apply sqrt_lt_R0; lra).
    pose proof (scaling_pos vm E) as SP.
    set (w := sqrt (E - v0 s)) in *. set (sc := scaling vm E) in *.
    cbv zeta in *.
    set (m := Int_part _) in *.
    set (t0 := atan_safe (y0 ya * w) (y1 ya)) in *. set (ps := atan_safe (y0 yb * w) (y1 yb)) in *.
    set (th := ps - _) in *.
    assert (exists k, (if Rltb th (- PI / 2) then th + PI else if Rltb (PI / 2) th then th - PI else th) = th + IZR k * PI).
    { destruct (Rltb th (- PI / 2)); [exists 1%Z; ring|]. destruct (Rltb (PI / 2) th); [exists (-1)%Z; ring|exists 0%Z; ring]. }
    destruct H0 as [k1 E1]. rewrite E1 in *.
    assert (exists k, (let theta1 := th + IZR k1 * PI + (t0 + w * d) in if Rltb theta1 t0 then theta1 + PI else theta1) = ps + IZR k * PI).
    { cbv zeta. unfold th. destruct (Rltb _ t0).
      - exists (m + k1 + 1)%Z. rewrite !plus_IZR. ring.
      - exists (m + k1)%Z. rewrite !plus_IZR. ring. }
    destruct H0 as [k2 E2]. cbv zeta in E2. rewrite E2 in *.
    apply (HH (rescale ps (sc / w) - rescale t0 (sc / w)) k2).
    + rewrite rescale_shift. ring.
    + unfold ps, t0. rewrite !rescale_safe; auto.
  - cbv zeta in *. set (ta := atan_safe _ (y1 ya)) in *. set (tb := atan_safe _ (y1 yb)) in *.
    destruct (Rleb 0 (y0 ya * y0 yb)).
    + destruct ((if Reqb ta 0 then 1%Z else signI ta) * (if Reqb tb 0 then (-1)%Z else signI tb) <? 0)%Z.
      * eapply HH; [|reflexivity]. instantiate (1 := (if Reqb ta 0 then 1%Z else signI ta)). ring.
      * eapply HH; [|reflexivity]. instantiate (1 := 0%Z). ring.
    + destruct (Rltb 0 (ta * tb)); (eapply HH; [|reflexivity]); [instantiate (1 := 1%Z)|instantiate (1 := 0%Z)]; ring.
Qed.

(** Angles of a non-zero vector differ by multiples of pi. *)
Lemma sin_zero_multiple x : sin x = 0 -> multiple_of_pi x.
Proof. intros H. destruct (sin_eq_0_0 x H) as [k ->]. exists k. reflexivity. Qed.
Lemma angle_diff s a b y : s <> 0 -> nonzero y -> is_angle s a y -> is_angle s b y -> multiple_of_pi (a - b).
Proof.
  unfold is_angle, nonzero. intros Hs Hn Ea Eb. apply sin_zero_multiple. rewrite sin_minus.
  destruct Hn as [Hx|Hy].
  - apply (Rmult_eq_reg_l (s * y0 y)); [|apply Rmult_integral_contrapositive; auto].
    transitivity (sin a * (s * y0 y * cos b) - sin b * (s * y0 y * cos a)); [ring|]. rewrite Ea, Eb. ring.
  - apply (Rmult_eq_reg_l (y1 y)); auto.
    transitivity ((y1 y * sin a) * cos b - (y1 y * sin b) * cos a); [ring|]. rewrite <- Ea, <- Eb. ring.
Qed.

Definition yzero (y : Y) : Prop := y0 y = 0 /\ y1 y = 0.
Lemma nonzero_dec y : nonzero y \/ yzero y.
Proof. unfold nonzero, yzero. destruct (Req_dec (y0 y) 0), (Req_dec (y1 y) 0); auto. Qed.

Lemma prufer_step vm s E d ya yb th : nonzero ya -> is_angle (scaling vm E) th ya ->
  is_angle (scaling vm E) (th + prufer vm s E d ya yb) yb.
Proof.
  intros Hn Ha. destruct (prufer_angle vm s E d ya yb) as [ta [tb [k [-> [Eta Etb]]]]].
  assert (A1 : is_angle (scaling vm E) ta ya) by (subst ta; apply atan_safe_angle).
  assert (A2 : is_angle (scaling vm E) tb yb) by (subst tb; apply atan_safe_angle).
  pose proof (scaling_pos vm E). destruct (angle_diff (scaling vm E) th ta ya) as [k' K']; auto; [lra|].
  replace (th + (tb - ta + IZR k * PI)) with (tb + IZR (k' + k) * PI) by (rewrite plus_IZR; lra).
  apply is_angle_shift; auto.
Qed.
Lemma prufer_step_back vm s E d ya yb th : nonzero yb -> is_angle (scaling vm E) th yb ->
  is_angle (scaling vm E) (th - prufer vm s E d ya yb) ya.
Proof.
  intros Hn Ha. destruct (prufer_angle vm s E d ya yb) as [ta [tb [k [-> [Eta Etb]]]]].
  assert (A1 : is_angle (scaling vm E) ta ya) by (subst ta; apply atan_safe_angle).
  assert (A2 : is_angle (scaling vm E) tb yb) by (subst tb; apply atan_safe_angle).
  pose proof (scaling_pos vm E). destruct (angle_diff (scaling vm E) th tb yb) as [k' K']; auto; [lra|].
  replace (th - (tb - ta + IZR k * PI)) with (ta + IZR (k' - k) * PI) by (rewrite minus_IZR; lra).
  apply is_angle_shift; auto.
Qed.

Lemma prufer_nonneg vm s E d ya yb : v0 s < E -> 0 <= d -> 0 <= prufer vm s E d ya yb.
Proof.
  intros H Hd. unfold prufer. apply Rltb_true in H. rewrite H. apply Rltb_true in H. cbv zeta.
  assert (W : 0 < sqrt (E - v0 s)) by (apply sqrt_lt_R0; lra). pose proof (scaling_pos vm E) as SP.
  set (w := sqrt (E - v0 s)) in *. set (t0 := atan_safe (y0 ya * w) (y1 ya)).
  set (ps := atan_safe (y0 yb * w) (y1 yb)).
  set (pb := w * d + t0).
  pose proof PIpos as PP.
  assert (F : 0 <= pb - IZR (Int_part (pb / PI)) * PI < PI).
  { destruct (base_Int_part (pb / PI)) as [I1 I2].
    assert (pb = pb / PI * PI) by (field; lra).
    split; [apply Rmult_le_compat_r with (r := PI) in I1; lra|].
    assert (pb / PI - IZR (Int_part (pb / PI)) < 1) by lra.
    apply Rmult_lt_compat_r with (r := PI) in H1; auto. lra. }
  assert (PS : - (PI/2) < ps <= PI/2) by apply atan_safe_range.
  set (th := ps - (pb - IZR (Int_part (pb / PI)) * PI)) in *.
  set (th1 := if Rltb th (- PI / 2) then th + PI else if Rltb (PI / 2) th then th - PI else th) in *.
  assert (T1 : - (PI/2) <= th1).
  { unfold th1. destruct (Rltb th (- PI / 2)) eqn:A; [apply Rltb_true in A|apply Rltb_false in A].
    - unfold th in *. lra.
    - destruct (Rltb (PI / 2) th) eqn:B; [apply Rltb_true in B|]; lra. }
  assert (M : t0 <= (if Rltb (th1 + (t0 + w * d)) t0 then th1 + (t0 + w * d) + PI else th1 + (t0 + w * d))).
  { destruct (Rltb (th1 + (t0 + w * d)) t0) eqn:A; [apply Rltb_true in A|apply Rltb_false in A]; auto.
    pose proof (Rmult_le_pos _ _ (Rlt_le _ _ W) Hd). lra. }
  pose proof (rescale_mono (scaling vm E / w) _ _ (Rdiv_lt_0_compat _ _ SP W) M). lra.
Qed.

(** Scaling invariance. *)
Lemma prufer_scale vm s E d ca cb ya yb : ca <> 0 -> 0 < ca * cb ->
  prufer vm s E d (yscale ca ya) (yscale cb yb) = prufer vm s E d ya yb.
Proof.
  intros Hca Hcab. assert (Hcb : cb <> 0) by (intros ->; lra).
  unfold prufer, yscale; cbn [y0 y1].
  assert (A1 : forall c y x w, c <> 0 -> atan_safe (y * c * w) (x * c) = atan_safe (y * w) x).
  { intros c y x w Hc. rewrite <- (atan_safe_scale c (y * w) x Hc). f_equal; ring. }
  assert (A2 : forall c y x w, c <> 0 -> atan_safe (w * (y * c)) (x * c) = atan_safe (w * y) x).
  { intros c y x w Hc. rewrite <- (atan_safe_scale c (w * y) x Hc). f_equal; ring. }
  rewrite !A1, !A2 by auto.
  replace (Rleb 0 (y0 ya * ca * (y0 yb * cb))) with (Rleb 0 (y0 ya * y0 yb)); [reflexivity|].
  destruct (Rleb 0 (y0 ya * y0 yb)) eqn:A; symmetry; [apply Rleb_true; apply Rleb_true in A|apply Rleb_false; apply Rleb_false in A]; nra.
Qed.
Lemma theta0_scale vm s E c y : c <> 0 -> theta0 vm s E (yscale c y) = theta0 vm s E y.
Proof.
  intros Hc. rewrite !theta0_val. unfold yscale; cbn [y0 y1]. rewrite <- (atan_safe_scale c (scaling vm E * y0 y) (y1 y) Hc). f_equal; ring.
Qed.
