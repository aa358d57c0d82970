(** Arguments of complex numbers, and the angle of one channel of a coupled problem. *)
From Coq Require Import Reals ZArith Lra Lia Bool.
From Coquelicot Require Import Coquelicot.
From Coq Require Import List Permutation.
From Verif Require Import Base M_Sectors S_Sectors M_Core S_Core P_Prufer S_Eta P_Eta S_Zeros P_Lift P_Cross P_Global2 P_Step P_Constant M_Angle S_Channel.
Import ListNotations.
Open Scope R_scope.

Lemma cis_plus : forall a b, Cmult (cis a) (cis b) = cis (a + b).
Proof. intros a b. unfold cis, Cmult. cbn [fst snd]. rewrite cos_plus, sin_plus. f_equal; ring. Qed.
Lemma cis_shift2 : forall t k, cis (t + IZR k * (2 * PI)) = cis t.
Proof.
  intros t k. unfold cis. replace (IZR k * (2 * PI)) with (IZR (2 * k) * PI) by (rewrite mult_IZR; ring).
  destruct (sincos_shift t (2 * k)) as (e & He & S & Cc). replace (2 * k)%Z with (k + k)%Z in * by lia.
  assert (e = 1).
  { destruct (sincos_shift t k) as (e1 & H1 & S1 & C1). rewrite plus_IZR, Rmult_plus_distr_r, <- Rplus_assoc in S, Cc.
    destruct (shift_sign k) as (e2 & H2 & H3). rewrite (proj1 (H3 _)), (proj1 (H3 _)) in S. rewrite (proj2 (H3 _)), (proj2 (H3 _)) in Cc.
    rewrite <- Rmult_assoc, H2, Rmult_1_l in S, Cc. pose proof (sin2_cos2 t) as U. unfold Rsqr in U.
    destruct He as [-> | ->]; [reflexivity|]. assert (sin t = 0) by lra. assert (cos t = 0) by lra. rewrite H, H0 in U. lra. }
  subst e. rewrite S, Cc. f_equal; ring.
Qed.
Lemma cis_inj : forall a b, cis a = cis b -> - (2 * PI) < a - b < 2 * PI -> a = b.
Proof.
  intros a b E H. injection E as Ec Es.
  assert (cos (a - b) = 1) as K. { rewrite cos_minus, Ec, Es. pose proof (sin2_cos2 b) as U. unfold Rsqr in U. lra. }
  pose proof PIpos. destruct (Rtotal_order (a - b) 0) as [L|[Z|L]]; [|lra|].
  - assert (cos (a - b) < 1); [|lra]. rewrite <- (cos_neg (a - b)). replace (- (a - b)) with (2 * ((b - a) / 2)) by field. rewrite cos_2a_sin.
    assert (0 < sin ((b - a) / 2)) by (apply sin_gt_0; lra). nra.
  - assert (cos (a - b) < 1); [|lra]. replace (a - b) with (2 * ((a - b) / 2)) by field. rewrite cos_2a_sin.
    assert (0 < sin ((a - b) / 2)) by (apply sin_gt_0; lra). nra.
Qed.

(** ---- atan2 *)
Lemma atan2_spec : forall y x, x <> 0 \/ y <> 0 -> exists r, 0 < r /\ x = r * cos (atan2 y x) /\ y = r * sin (atan2 y x) /\ - PI < atan2 y x <= PI.
Proof.
  intros y x H. unfold atan2. pose proof PIpos as HP.
  assert (forall t, 0 < cos (atan t)) as CP by (intro; apply atan_pos_cos).
  destruct (Rltb 0 x) eqn:A; [apply Rltb_true in A|apply Rltb_false in A].
  - exists (x / cos (atan (y / x))). pose proof (CP (y / x)) as Cc. rewrite sin_atan. destruct (atan_bound (y / x)). repeat split; try lra.
    + apply Rdiv_lt_0_compat; lra.
    + field. lra.
    + field. split; lra.
  - destruct (Rltb x 0) eqn:B; [apply Rltb_true in B|apply Rltb_false in B].
    + exists (- x / cos (atan (y / x))). pose proof (CP (y / x)) as Cc. destruct (atan_bound (y / x)).
      assert (0 < - x / cos (atan (y / x))) by (apply Rdiv_lt_0_compat; lra).
      destruct (Rleb 0 y) eqn:D; [apply Rleb_true in D|apply Rleb_false in D].
      * rewrite cos_plus_PI, sin_plus_PI, sin_atan. repeat split; try lra; try (field; repeat split; lra).
        assert (atan (y / x) <= 0); [|lra]. rewrite <- atan_0. destruct D as [D|D].
        -- left. apply atan_increasing. pose proof (Rinv_lt_0_compat _ B). unfold Rdiv. nra.
        -- rewrite <- D. unfold Rdiv. rewrite Rmult_0_l. lra.
      * rewrite cos_minus_PI, sin_minus_PI, sin_atan. repeat split; try lra; try (field; repeat split; lra).
        assert (0 < atan (y / x)); [|lra]. rewrite <- atan_0. apply atan_increasing. unfold Rdiv.
        replace (y * / x) with ((- y) * / (- x)) by (field; lra). apply Rmult_lt_0_compat; [lra|apply Rinv_0_lt_compat; lra].
    + assert (x = 0) as -> by lra. destruct H as [H|H]; [congruence|].
      destruct (Rltb 0 y) eqn:D; [apply Rltb_true in D|apply Rltb_false in D].
      * exists y. rewrite cos_PI2, sin_PI2. repeat split; lra.
      * assert (y < 0) as D2 by lra. rewrite (proj2 (Rltb_true y 0) D2). exists (- y). rewrite cos_neg, sin_neg, cos_PI2, sin_PI2. repeat split; lra.
Qed.
Lemma cangle_spec : forall z, z <> RtoC 0 -> exists r, 0 < r /\ z = Cmult (RtoC r) (cis (cangle z)) /\ 0 < cangle z <= 2 * PI.
Proof.
  intros [x y] H. unfold cangle, carg. cbn [fst snd]. pose proof PIpos as HP.
  destruct (atan2_spec y x) as (r & Hr & Ex & Ey & B).
  { destruct (Req_dec x 0) as [->|]; [|left; assumption]. right. intros ->. apply H. reflexivity. }
  set (a := atan2 y x) in *. exists r. split; [exact Hr|].
  destruct (Rleb a 0) eqn:L; [apply Rleb_true in L|apply Rleb_false in L].
  - split; [|lra]. replace (a + PI * 2) with (a + IZR 1 * (2 * PI)) by ring. rewrite cis_shift2. unfold cis, Cmult, RtoC. cbn [fst snd]. f_equal; rewrite Rmult_0_l; lra.
  - split; [|lra]. unfold cis, Cmult, RtoC. cbn [fst snd]. f_equal; rewrite Rmult_0_l; lra.
Qed.
Lemma cis_nz : forall t, cis t <> RtoC 0.
Proof. intros t H. injection H as Hc Hs. pose proof (sin2_cos2 t) as U. unfold Rsqr in U. rewrite Hc, Hs in U. lra. Qed.
Lemma scaled_cis : forall r a b, 0 < r -> cis a = Cmult (RtoC r) (cis b) -> r = 1 /\ cis a = cis b.
Proof.
  intros r a b Hr E. assert (r = 1) as ->.
  { injection E as Ec Es. pose proof (sin2_cos2 a) as U. pose proof (sin2_cos2 b) as W. unfold Rsqr in *. cbn in Ec, Es. rewrite Ec, Es in U.
    assert (r * r = 1). { replace (r * r) with (r * r * (sin b * sin b + cos b * cos b)) by (rewrite W; ring). lra. } nra. }
  split; [reflexivity|]. rewrite E. apply Cmult_1_l.
Qed.
Lemma cangle_cis : forall t, cis (cangle (cis t)) = cis t /\ 0 < cangle (cis t) <= 2 * PI.
Proof.
  intro t. destruct (cangle_spec (cis t) (cis_nz t)) as (r & Hr & E & B). split; [|exact B]. symmetry. apply (scaled_cis r t _ Hr E).
Qed.

(** the angle in (0, 2 pi] of cis(2x), from the number of multiples of pi below x *)
Lemma cangle_double : forall x k, IZR k * PI < x <= (IZR k + 1) * PI -> cangle (cis (2 * x)) = 2 * x - IZR k * (2 * PI).
Proof.
  intros x k H. destruct (cangle_cis (2 * x)) as [E B]. apply cis_inj.
  - rewrite E. replace (2 * x - IZR k * (2 * PI)) with (2 * x + IZR (- k) * (2 * PI)) by (rewrite opp_IZR; ring). symmetry. apply cis_shift2.
  - lra.
Qed.
(** two angles with the same number of multiples of pi below *)
Lemma cangle_same : forall x y, flr x = flr y -> (multiple_of_pi x <-> multiple_of_pi y) -> cangle (cis (2 * x)) - cangle (cis (2 * y)) = 2 * x - 2 * y.
Proof.
  intros x y F M. pose proof (flr_spec x) as Sx. pose proof (flr_spec y) as Sy. rewrite <- F in Sy. pose proof PIpos. set (k := flr x) in *.
  assert (exists m, (IZR m * PI < x <= (IZR m + 1) * PI) /\ (IZR m * PI < y <= (IZR m + 1) * PI)) as (m & Mx & My).
  { destruct (Req_dec x (IZR k * PI)) as [Ex|Nx].
    - assert (y = IZR k * PI) as Ey.
      { destruct (proj1 M (ex_intro _ k Ex)) as [j Ej]. assert (j = k); [|congruence]. rewrite Ej in Sy.
        assert (IZR j < IZR k + 1) by (apply (Rmult_lt_reg_r PI); lra). assert (IZR k <= IZR j) by (apply (Rmult_le_reg_r PI); lra).
        rewrite <- plus_IZR in H0. apply lt_IZR in H0. apply le_IZR in H1. lia. }
      exists (k - 1)%Z. rewrite minus_IZR. lra.
    - assert (y <> IZR k * PI) as Ny.
      { intro Ey. destruct (proj2 M (ex_intro _ k Ey)) as [j Ej]. apply Nx. assert (j = k); [|congruence]. rewrite Ej in Sx.
        assert (IZR j < IZR k + 1) by (apply (Rmult_lt_reg_r PI); lra). assert (IZR k <= IZR j) by (apply (Rmult_le_reg_r PI); lra).
        rewrite <- plus_IZR in H0. apply lt_IZR in H0. apply le_IZR in H1. lia. }
      exists k. lra. }
  rewrite (cangle_double x m Mx), (cangle_double y m My). ring.
Qed.

(** ---- the reference angle of a channel: a continuous, increasing angle of the solution that starts at 0 *)
Definition Aref (w t : R) : R := if Rlt_dec w 0 then rescale (sqrt (- w) * t) (/ sqrt (- w)) else atan (Sw w t / Cw w t).
Lemma Cw_pos : forall w t, 0 <= w -> 0 < Cw w t.
Proof.
  intros w t Hw. unfold Cw. replace (w * (t * t)) with ((sqrt w * t) ^ 2). 2:{ rewrite Rpow_mult_distr. simpl. rewrite !Rmult_1_r, sqrt_sqrt by exact Hw. ring. }
  rewrite eta0_cosh. unfold cosh. pose proof (exp_pos (sqrt w * t)). pose proof (exp_pos (- (sqrt w * t))). lra.
Qed.
Lemma CS_trig : forall w t, w < 0 -> Cw w t = cos (sqrt (- w) * t) /\ sqrt (- w) * Sw w t = sin (sqrt (- w) * t).
Proof.
  intros w t Hw. unfold Cw, Sw. assert (w * (t * t) = - (sqrt (- w) * t) ^ 2) as ->.
  { rewrite Rpow_mult_distr. simpl. rewrite !Rmult_1_r, sqrt_sqrt by lra. ring. }
  rewrite eta0_cos, <- eta1_sin. split; [reflexivity|ring].
Qed.
Lemma ref_angle_val : forall w t, ref_angle t (t * t * w) (fst (eta2 (t * t * w))) (snd (eta2 (t * t * w))) = Aref w t.
Proof.
  intros w t. unfold ref_angle, eta2, Aref. cbn [fst snd]. replace (t * t * w) with (w * (t * t)) by ring. fold (Cw w t).
  destruct (Rlt_dec w 0) as [Hw|Hw].
  - pose proof (sqrt_lt_R0 (- w) ltac:(lra)) as Hom. destruct (CS_trig w t Hw) as [Ec Es]. set (om := sqrt (- w)) in *.
    assert (om * om = - w) as Om by (unfold om; apply sqrt_sqrt; lra).
    destruct (Req_dec t 0) as [->|Ht].
    { rewrite (proj2 (Rltb_false _ 0)) by lra. rewrite Cw_0. rewrite !Rmult_0_l, Rmult_0_r. unfold rescale. rewrite sin_0. rewrite !Rmult_0_r, Rmult_0_l.
      replace (1 + 0) with 1 by ring. unfold atan2. rewrite (proj2 (Rltb_true 0 1)) by lra. unfold Rdiv. rewrite Rmult_0_l, atan_0. ring. }
    assert (0 < t * t) by nra. rewrite (proj2 (Rltb_true _ 0)) by nra.
    replace ((if Rltb t 0 then -1 else 1) * sqrt (- (w * (t * t)))) with (om * t).
    2:{ replace (- (w * (t * t))) with ((- w) * (t * t)) by ring. rewrite sqrt_mult by lra. fold om. fold (Rsqr t). rewrite sqrt_Rsqr_abs.
        destruct (Rltb t 0) eqn:L; [apply Rltb_true in L; rewrite Rabs_left by lra|apply Rltb_false in L; rewrite Rabs_right by lra]; ring. }
    unfold rescale. f_equal.
    assert (t * eta 1 (w * (t * t)) = Sw w t) as Q by reflexivity. rewrite <- Ec, <- Es. f_equal.
    + transitivity ((1 - om) * (t * eta 1 (w * (t * t))) * Cw w t); [ring|]. rewrite Q. field. lra.
    + transitivity (1 + (om - om * om) * (t * eta 1 (w * (t * t))) * (t * eta 1 (w * (t * t)))); [rewrite Om; ring|]. rewrite Q. field. lra.
  - assert (0 <= w * (t * t)) by (apply Rmult_le_pos; [lra|apply Rle_0_sqr]). rewrite (proj2 (Rltb_false _ 0)) by lra.
    unfold atan2. fold (Sw w t). rewrite (proj2 (Rltb_true 0 (Cw w t))); [reflexivity|]. apply Cw_pos. lra.
Qed.
Lemma Aref_polar : forall w t, exists r, 0 < r /\ Cw w t = r * cos (Aref w t) /\ Sw w t = r * sin (Aref w t).
Proof.
  intros w t. unfold Aref. destruct (Rlt_dec w 0) as [Hw|Hw].
  - pose proof (sqrt_lt_R0 (- w) ltac:(lra)) as Hom. destruct (CS_trig w t Hw) as [Ec Es]. set (om := sqrt (- w)) in *.
    destruct (rescale_sincos (om * t) (/ om) (Rinv_0_lt_compat _ Hom)) as (k & Hk & S & Cc). exists (/ k). split; [apply Rinv_0_lt_compat, Hk|].
    rewrite S, Cc, <- Ec, <- Es. split; field; lra.
  - pose proof (Cw_pos w t ltac:(lra)) as Hc. pose proof (atan_pos_cos (Sw w t / Cw w t)) as P. exists (Cw w t / cos (atan (Sw w t / Cw w t))).
    split; [apply Rdiv_lt_0_compat; assumption|]. rewrite sin_atan. split; field; lra.
Qed.
Lemma Aref_0 : forall w, Aref w 0 = 0.
Proof.
  intro w. unfold Aref. destruct (Rlt_dec w 0).
  - rewrite Rmult_0_r. unfold rescale. rewrite sin_0, !Rmult_0_r, Rmult_0_l. unfold atan2. rewrite (proj2 (Rltb_true 0 (1 + 0))) by lra. unfold Rdiv. rewrite Rmult_0_l, atan_0. ring.
  - rewrite Sw_0. unfold Rdiv. rewrite Rmult_0_l. apply atan_0.
Qed.
Lemma Aref_derive : forall w t, exists d, 0 < d /\ is_derive (Aref w) t d.
Proof.
  intros w t. unfold Aref. destruct (Rlt_dec w 0) as [Hw|Hw].
  - pose proof (sqrt_lt_R0 (- w) ltac:(lra)) as Hom. set (om := sqrt (- w)) in *. pose proof (Rinv_0_lt_compat _ Hom) as Hi.
    exists (om * (/ om / (cos (om * t) * cos (om * t) + / om * / om * (sin (om * t) * sin (om * t))))). split.
    + apply Rmult_lt_0_compat; [exact Hom|]. apply Rdiv_lt_0_compat; [exact Hi|].
      pose proof (rden_pos (/ om * / om) (om * t) ltac:(nra)) as W. unfold rden in W. pose proof (sin2_cos2 (om * t)) as Q. unfold Rsqr in Q. lra.
    + apply (is_derive_ext (fun t => (fun u => u + atan ((/ om - 1) * sin u * cos u / rden (/ om) u)) (om * t))).
      * intro u. cbv beta. rewrite rescale_atan by exact Hi. reflexivity.
      * evar_last; [apply (is_derive_comp (fun u => u + atan ((/ om - 1) * sin u * cos u / rden (/ om) u)) (fun t => om * t)); [apply is_derive_rescale, Hi|auto_derive; [exact I|reflexivity]]|].
        unfold scal; simpl; unfold mult; simpl. ring.
  - pose proof (Cw_pos w t ltac:(lra)) as Hc. pose proof (CS_1 w t) as U.
    exists (/ (Cw w t * Cw w t + Sw w t * Sw w t)). assert (0 < Cw w t * Cw w t + Sw w t * Sw w t) by nra. split; [apply Rinv_0_lt_compat; assumption|].
    evar_last.
    + apply (is_derive_comp atan (fun t => Sw w t / Cw w t)); [apply is_derive_atan|].
      apply (is_derive_div (Sw w) (Cw w)); [apply Sw_derive|apply Cw_derive|lra].
    + unfold scal; simpl; unfold mult; simpl. unfold Rsqr.
      transitivity ((Cw w t * Cw w t - w * (Sw w t * Sw w t)) / (Cw w t * Cw w t + Sw w t * Sw w t)); [|rewrite U; field; lra].
      assert (1 + Sw w t / Cw w t * (Sw w t / Cw w t * 1) <> 0) by (apply Rgt_not_eq; pose proof (Rle_0_sqr (Sw w t / Cw w t)) as Q; unfold Rsqr in Q; lra).
      set (s := Sw w t) in *. set (c := Cw w t) in *. clearbody s c. field. repeat split; try lra; nra.
Qed.
Lemma Aref_continuous : forall w t, continuous (Aref w) t.
Proof. intros w t. destruct (Aref_derive w t) as (d & _ & D). apply (ex_derive_continuous (Aref w)). exists d. exact D. Qed.
Lemma Aref_increasing : forall w s t, s < t -> Aref w s < Aref w t.
Proof.
  intros w s t H. destruct (MVT_gen (Aref w) s t (fun x => Derive (Aref w) x)) as (c & _ & E).
  - intros x _. destruct (Aref_derive w x) as (d & _ & D). apply Derive_correct. exists d. exact D.
  - intros x _. apply continuity_pt_filterlim, Aref_continuous.
  - destruct (Aref_derive w c) as (d & Hd & D). apply is_derive_unique in D. rewrite D in E. assert (0 < d * (t - s)) by (apply Rmult_lt_0_compat; lra). lra.
Qed.

(** ---- one channel *)
Lemma chan_sol : forall w p q z z', chan w p q z z' -> sol_on (fun _ => w) 0 p q z z'.
Proof. intros w p q z z' [C D]. split; [exact C|]. intros x Hx. destruct (D x Hx) as [D1 D2]. split; [exact D1|]. rewrite Rminus_0_r. exact D2. Qed.
Lemma flow_up : forall w p q z z' a b, chan w p q z z' -> p <= a -> a <= b -> b <= q ->
  z b = Cw w (b - a) * z a + Sw w (b - a) * z' a /\ z' b = w * Sw w (b - a) * z a + Cw w (b - a) * z' a.
Proof.
  intros w p q z z' a b [C D] Ha Hab Hb.
  assert (forall (f : R -> R) t, continuous f (a + t) -> continuous (fun t => f (a + t)) t) as CC.
  { intros f t Hf. apply (continuous_comp (fun t => a + t) f); [|exact Hf]. apply (continuous_plus (fun _ => a) (fun t => t)); [apply continuous_const|apply continuous_id]. }
  assert (forall (f : R -> R) t l, is_derive f (a + t) l -> is_derive (fun t => f (a + t)) t l) as DD.
  { intros f t l Hf. evar_last; [apply (is_derive_comp f (fun t => a + t)); [exact Hf|auto_derive; [exact I|reflexivity]]|]. unfold scal; simpl; unfold mult; simpl. ring. }
  destruct (const_flow w (b - a) (fun t => z (a + t)) (fun t => z' (a + t))) as [F1 F2].
  - lra.
  - intros t Ht. destruct (C (a + t) ltac:(lra)). split; apply CC; assumption.
  - intros t Ht. destruct (D (a + t) ltac:(lra)). split; apply DD; assumption.
  - cbv beta in F1, F2. replace (a + (b - a)) with b in F1, F2 by ring. rewrite Rplus_0_r in F1, F2. split; assumption.
Qed.
Lemma Cw_opp : forall w t, Cw w (- t) = Cw w t. Proof. intros. unfold Cw. f_equal. ring. Qed.
Lemma Sw_opp : forall w t, Sw w (- t) = - Sw w t.
Proof. intros. unfold Sw. replace (w * (- t * - t)) with (w * (t * t)) by ring. ring. Qed.
Lemma flow_any : forall w p q z z' a b, chan w p q z z' -> p <= a <= q -> p <= b <= q ->
  z b = Cw w (b - a) * z a + Sw w (b - a) * z' a /\ z' b = w * Sw w (b - a) * z a + Cw w (b - a) * z' a.
Proof.
  intros w p q z z' a b H Ha Hb. destruct (Rle_lt_dec a b) as [L|L]; [apply (flow_up w p q); auto; lra|].
  destruct (flow_up w p q z z' b a H) as [F1 F2]; try lra. pose proof (CS_1 w (a - b)) as U.
  replace (b - a) with (- (a - b)) by ring. rewrite Cw_opp, Sw_opp. set (c := Cw w (a - b)) in *. set (s := Sw w (a - b)) in *. rewrite F1, F2. split.
  - replace (z b) with ((c * c - w * (s * s)) * z b) at 1 by (rewrite U; ring). ring.
  - replace (z' b) with ((c * c - w * (s * s)) * z' b) at 1 by (rewrite U; ring). ring.
Qed.

Lemma up_shifted : forall w c a p q, up_right (fun x => c + Aref w (x - a)) p q /\ up_left (fun x => c + Aref w (x - a)) p q.
Proof.
  intros w c a p q. split; intros k x Hx E; exists 1; (split; [lra|]); intros y Hy _; cbv beta in *; rewrite <- E; apply Rplus_lt_compat_l, Aref_increasing; lra.
Qed.
Lemma cont_shifted : forall w c a x, continuous (fun x => c + Aref w (x - a)) x.
Proof.
  intros w c a x. apply (continuous_plus (fun _ => c) (fun x => Aref w (x - a))); [apply continuous_const|].
  apply (continuous_comp (fun x => x - a) (Aref w)); [|apply Aref_continuous]. apply (continuous_minus (fun x => x) (fun _ => a)); [apply continuous_id|apply continuous_const].
Qed.
Lemma same_length : forall (l1 l2 : list R), NoDup l1 -> NoDup l2 -> (forall x, In x l1 <-> In x l2) -> length l1 = length l2.
Proof. intros l1 l2 N1 N2 H. apply Permutation_length, NoDup_Permutation; assumption. Qed.
Lemma lift1_ang : forall z z' p q phi, lift z z' p q phi -> ang 1 z z' p q phi.
Proof. intros z z' p q phi [C A]. split; [exact C|]. intros x Hx. rewrite Rmult_1_l. apply A, Hx. Qed.

Section Channel.
Variables (w p q : R) (z z' phi : R -> R).
Hypothesis H : chan w p q z z'.
Hypothesis N : nontrivial z z' p q.
Hypothesis L : lift z z' p q phi.

Lemma start_polar : forall a, p <= a <= q -> exists c, c <> 0 /\ z a = c * sin (phi a) /\ z' a = c * cos (phi a).
Proof using N L.
  intros a Ha. destruct L as [_ A]. specialize (A a Ha). exists (z a * sin (phi a) + z' a * cos (phi a)).
  pose proof (sin2_cos2 (phi a)) as U. unfold Rsqr in U.
  assert (z a = (z a * sin (phi a) + z' a * cos (phi a)) * sin (phi a)) as E1.
  { transitivity (z a * (sin (phi a) * sin (phi a)) + (z' a * sin (phi a)) * cos (phi a)); [|ring]. rewrite <- A.
    transitivity (z a * (sin (phi a) * sin (phi a) + cos (phi a) * cos (phi a))); [rewrite U; ring|ring]. }
  assert (z' a = (z a * sin (phi a) + z' a * cos (phi a)) * cos (phi a)) as E2.
  { transitivity ((z a * cos (phi a)) * sin (phi a) + z' a * (cos (phi a) * cos (phi a))); [|ring]. rewrite A.
    transitivity (z' a * (sin (phi a) * sin (phi a) + cos (phi a) * cos (phi a))); [rewrite U; ring|ring]. }
  split; [|split; assumption]. intro Z. rewrite Z, Rmult_0_l in E1, E2. destruct (N a Ha); congruence.
Qed.
(** the zeros of the solution are where the reference angle, started at the angle of the solution, is a multiple of pi *)
Lemma zero_iff : forall a x, p <= a <= q -> p <= x <= q -> (multiple_of_pi (phi x) <-> multiple_of_pi (phi a + Aref w (x - a))).
Proof using H N L.
  intros a x Ha Hx. rewrite <- (ang_zero 1 z z' p q phi ltac:(lra) N (lift1_ang _ _ _ _ _ L) x Hx).
  destruct (flow_any w p q z z' a x H Ha Hx) as [F _]. destruct (start_polar a Ha) as (c & Hc & E1 & E2). destruct (Aref_polar w (x - a)) as (r & Hr & P1 & P2).
  assert (z x = c * r * sin (phi a + Aref w (x - a))) as E. { rewrite F, E1, E2, P1, P2, sin_plus. ring. }
  rewrite E. split; intro Z.
  - apply sin_zero_multiple. apply Rmult_integral in Z as [Z|Z]; [|exact Z]. apply Rmult_integral in Z as [Z|Z]; [congruence|lra].
  - destruct Z as [k Ek]. rewrite Ek. destruct (sincos_shift 0 k) as (e & _ & S & _). rewrite Rplus_0_l, sin_0 in S. rewrite S. ring.
Qed.
Lemma phi_up : up_right phi p q /\ up_left phi p q.
Proof using H N L.
  split; [apply (ang_up_right (fun _ => w) 0 1 z z')|apply (ang_up_left (fun _ => w) 0 1 z z')]; try lra; try exact N; try (apply chan_sol; exact H); apply lift1_ang, L.
Qed.
Lemma same_floor : forall a b, p <= a <= q -> p <= b <= q -> flr (phi b) = flr (phi a + Aref w (b - a)).
Proof using H N L.
  assert (forall a s t, p <= a <= q -> p <= s -> s <= t -> t <= q -> (flr (phi t) - flr (phi s) = flr (phi a + Aref w (t - a)) - flr (phi a + Aref w (s - a)))%Z) as K.
  { intros a s t Ha Hs Hst Ht. destruct phi_up as [U1 U2]. destruct (up_shifted w (phi a) a s t) as [U3 U4].
    destruct (level_count phi s t Hst (proj1 L)) as (l1 & N1 & I1 & F1).
    - intros k x Hx Ek. destruct (U1 k x ltac:(lra) Ek) as (d & Hd & Hn). exists d. split; [exact Hd|]. intros y Hy Hyq. apply Hn; lra.
    - intros k x Hx Ek. destruct (U2 k x ltac:(lra) Ek) as (d & Hd & Hn). exists d. split; [exact Hd|]. intros y Hy Hyq. apply Hn; lra.
    - destruct (level_count (fun x => phi a + Aref w (x - a)) s t Hst (fun x => cont_shifted w (phi a) a x) U3 U4) as (l2 & N2 & I2 & F2). cbv beta in F2.
      assert (length l1 = length l2) as E. { apply same_length; auto. intro x. rewrite I1, I2. split; intros [Hx M]; (split; [exact Hx|]); apply (zero_iff a x Ha); try lra; exact M. }
      rewrite F1, F2, E. lia. }
  intros a b Ha Hb. destruct (Rle_lt_dec a b) as [Lab|Lab].
  - specialize (K a a b Ha ltac:(lra) Lab ltac:(lra)). rewrite Rminus_eq_0, Aref_0, Rplus_0_r in K. lia.
  - specialize (K a b a Ha ltac:(lra) ltac:(lra) ltac:(lra)). rewrite Rminus_eq_0, Aref_0, Rplus_0_r in K. lia.
Qed.
(** the increment computed by the code for one channel *)
Theorem channel_angle : forall a b, p <= a <= q -> p <= b <= q ->
  2 * Aref w (b - a) + (cangle (cis (2 * phi b)) - cangle (cis (2 * (phi a + Aref w (b - a))))) = 2 * (phi b - phi a).
Proof using H N L.
  intros a b Ha Hb. rewrite (cangle_same (phi b) (phi a + Aref w (b - a))); [ring|apply same_floor; assumption|apply zero_iff; assumption].
Qed.
End Channel.

(** the complex numbers of one channel *)
Lemma quotient_cis : forall c t, c <> 0 -> Cdiv (c * cos t, c * sin t) (c * cos t, - (c * sin t)) = cis (2 * t).
Proof.
  intros c t Hc. pose proof (sin2_cos2 t) as U. unfold Rsqr in U. unfold Cdiv, Cinv, Cmult, cis. cbn [fst snd].
  replace ((c * cos t) ^ 2 + (- (c * sin t)) ^ 2) with (c * c) by (transitivity (c * c * (sin t * sin t + cos t * cos t)); [rewrite U; ring|ring]).
  rewrite cos_2a, sin_2a. f_equal; field; exact Hc.
Qed.
Lemma ref_turn_val : forall w d, ref_turn d (fst (eta2 (d * d * w))) (snd (eta2 (d * d * w))) = cis (2 * Aref w d).
Proof.
  intros w d. unfold ref_turn, eta2. cbn [fst snd]. replace (d * d * w) with (w * (d * d)) by ring. fold (Cw w d). fold (Sw w d).
  destruct (Aref_polar w d) as (r & Hr & E1 & E2). rewrite E1, E2. apply quotient_cis. lra.
Qed.
