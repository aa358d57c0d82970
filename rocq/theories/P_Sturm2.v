(** The angle depends continuously on the energy. *)
From Coq Require Import Reals ZArith Lra Lia Bool.
From Coquelicot Require Import Coquelicot.
From Coq Require Import List.
From Verif Require Import Base M_Sectors S_Sectors P_Lookup M_Core S_Core P_Core P_Core2 P_Prufer S_Formulas P_Terms2 S_Accuracy S_Zeros P_Lift P_Lift2 P_Cross P_Global2 P_Global3 P_Global5 P_Step P_Step2 P_Count P_Count2 P_Sturm.
Import ListNotations.
Open Scope R_scope.

Lemma atan_continuous : forall x, continuous atan x.
Proof. intro x. apply continuity_pt_filterlim, derivable_continuous_pt, derivable_pt_atan. Qed.
Lemma atan_small : forall eps, 0 < eps -> exists d, 0 < d /\ forall x, Rabs x < d -> Rabs (atan x) < eps.
Proof.
  intros eps He. assert (continuous atan 0) as C. { apply atan_continuous. }
  destruct (near atan 0 eps C He) as (d & Hd & H). exists d. split; [exact Hd|]. intros x Hx. specialize (H x). rewrite Rminus_0_r in H. specialize (H Hx). rewrite atan_0, Rminus_0_r in H. exact H.
Qed.

(** the angle between two nearby curves *)
Lemma turn_between : forall (u v u0 v0 : R -> R) lo hi f f0, lo <= hi -> (forall x, lo <= x <= hi -> continuous u x /\ continuous v x) ->
  (forall x, lo <= x <= hi -> continuous u0 x /\ continuous v0 x) -> (forall x, lo <= x <= hi -> 0 < u x * u0 x + v x * v0 x) ->
  lift u v lo hi f -> lift u0 v0 lo hi f0 -> forall a, lo <= a <= hi -> f a = f0 a -> u a = u0 a -> v a = v0 a ->
  forall x, lo <= x <= hi -> f x - f0 x = turn (u0 x) (v0 x) (u x) (v x).
Proof.
  intros u v u0 v0 lo hi f f0 Hlh C C0 Dot [Cf Af] [Cf0 Af0] a Ha Ea Ua Va x Hx.
  set (c := clamp lo hi).
  set (g := fun x => f x - f0 x - turn (u0 (c x)) (v0 (c x)) (u (c x)) (v (c x))).
  assert (forall x, continuous g x) as Cg.
  { intro t. unfold g. apply (continuous_minus (fun x => f x - f0 x) (fun x => turn (u0 (c x)) (v0 (c x)) (u (c x)) (v (c x)))); [apply (continuous_minus f f0); auto|].
    unfold turn.
    assert (forall h : R -> R, (forall x, lo <= x <= hi -> continuous h x) -> continuous (fun x => h (c x)) t) as K by (intros h Hh; apply clamp_comp_continuous; assumption).
    assert (forall p q : R -> R, continuous p t -> continuous q t -> continuous (fun x => p x * q x) t) as KM by (intros p q Hp Hq; apply (continuous_mult p q); assumption).
    assert (continuous (fun x => u (c x)) t) as K1 by (apply K; intros y Hy; apply C, Hy). assert (continuous (fun x => v (c x)) t) as K2 by (apply K; intros y Hy; apply C, Hy).
    assert (continuous (fun x => u0 (c x)) t) as K3 by (apply K; intros y Hy; apply C0, Hy). assert (continuous (fun x => v0 (c x)) t) as K4 by (apply K; intros y Hy; apply C0, Hy).
    apply (continuous_comp (fun x => (u (c x) * v0 (c x) - v (c x) * u0 (c x)) / (u (c x) * u0 (c x) + v (c x) * v0 (c x))) atan).
    - unfold Rdiv. apply KM.
      + apply (continuous_minus (fun x => u (c x) * v0 (c x)) (fun x => v (c x) * u0 (c x))); apply KM; assumption.
      + apply (continuous_comp (fun x => u (c x) * u0 (c x) + v (c x) * v0 (c x)) Rinv).
        * apply (continuous_plus (fun x => u (c x) * u0 (c x)) (fun x => v (c x) * v0 (c x))); apply KM; assumption.
        * apply (ex_derive_continuous Rinv). assert (0 < u (c t) * u0 (c t) + v (c t) * v0 (c t)) by (apply Dot, clamp_in, Hlh). auto_derive. lra.
    - apply atan_continuous. }
  assert (forall x, lo <= x <= hi -> multiple_of_pi (g x)) as Mg.
  { intros t Ht. unfold g, c. rewrite clamp_id by exact Ht.
    replace (f t - f0 t - turn (u0 t) (v0 t) (u t) (v t)) with (f t - (f0 t + turn (u0 t) (v0 t) (u t) (v t))) by ring.
    apply (angles_pi (u t) (v t)).
    - specialize (Dot t Ht). destruct (Req_dec (u t) 0) as [Z|Z]; [right; intro Z'; rewrite Z, Z' in Dot; lra|left; exact Z].
    - apply Af, Ht.
    - apply turn_angle; [apply Dot, Ht|apply Af0, Ht]. }
  pose proof (discrete_const g lo hi Cg Mg x Hx) as Q1. pose proof (discrete_const g lo hi Cg Mg a Ha) as Q2.
  assert (g a = 0) as Ga by (unfold g, c; rewrite clamp_id by exact Ha; rewrite Ua, Va, turn_self; lra).
  assert (g x = 0) as Gx by lra. unfold g, c in Gx. rewrite clamp_id in Gx by exact Hx. lra.
Qed.

Section Cont.
Variables (V : R -> R) (l : list sec) (lo hi M : R).
Hypothesis PT : partition lo hi l.
Hypothesis Ho : forall s, In s l -> smin s < smax s.
Hypothesis HM : forall s x, In s l -> smin s < x < smax s -> Rabs (V x) <= M.
Hypothesis HM0 : 0 <= M.

Lemma nontrivial_at : forall E z z' a, solution V E lo hi l z z' -> lo <= a <= hi -> z a <> 0 \/ z' a <> 0 -> nontrivial z z' lo hi.
Proof.
  intros E z z' a Sol Ha Na x Hx. destruct (Req_dec (z x) 0) as [Z|Z]; [|left; exact Z]. destruct (Req_dec (z' x) 0) as [Z'|Z']; [|right; exact Z']. exfalso.
  destruct (solution_unique V l lo hi M (proj2 PT) ltac:(intros s Hs; left; apply Ho, Hs) HM HM0 E z z' z z' Sol Sol 0 x Hx ltac:(lra) ltac:(lra) a Ha) as [U1 U2]. lra.
Qed.

Lemma angle_continuous : forall E0 z0 z0' f0 a eps, 0 < eps -> lo <= a <= hi -> solution V E0 lo hi l z0 z0' -> nontrivial z0 z0' lo hi -> ang 1 z0 z0' lo hi f0 ->
  exists d, 0 < d /\ forall E z z' f, Rabs (E - E0) < d -> solution V E lo hi l z z' -> z a = z0 a -> z' a = z0' a -> ang 1 z z' lo hi f -> f a = f0 a ->
  forall x, lo <= x <= hi -> Rabs (f x - f0 x) < eps.
Proof.
  intros E0 z0 z0' f0 a eps He Ha S0 N0 A0. assert (lo <= hi) as Hlh by lra. pose proof S0 as [C0 _].
  destruct (solution_lip V l lo hi M (proj2 PT) ltac:(intros s Hs; left; apply Ho, Hs) HM HM0 E0 z0 z0' a Ha S0) as (C & HC & Lip).
  set (r := fun x => z0 x * z0 x + z0' x * z0' x).
  assert (forall x, lo <= x <= hi -> continuity_pt r x) as Cr.
  { intros x Hx. apply continuity_pt_filterlim. destruct (C0 x Hx). apply (continuous_plus (fun x => z0 x * z0 x) (fun x => z0' x * z0' x)); [apply (continuous_mult z0 z0)|apply (continuous_mult z0' z0')]; assumption. }
  destruct (continuity_ab_min r lo hi Hlh Cr) as (xm & Hmin & Hxm). destruct (continuity_ab_maj r lo hi Hlh Cr) as (xM & Hmax & HxM).
  set (rho := r xm) in *. set (R2 := r xM) in *. set (B := 1 + R2).
  assert (0 < rho) as Hrho. { unfold rho, r. destruct (N0 xm Hxm); nra. }
  assert (0 < B) as HB. { unfold B, R2, r. nra. }
  assert (forall x, lo <= x <= hi -> Rabs (z0 x) + Rabs (z0' x) <= B) as Bd.
  { intros x Hx. specialize (Hmax x Hx). unfold B. fold R2 in Hmax. unfold r in Hmax.
    assert (forall w, Rabs w <= (1 + w * w) / 2) as K. { intro w. pose proof (Rabs_pos w). assert (w * w = Rabs w * Rabs w) as ->. { rewrite <- Rabs_mult, Rabs_right; [reflexivity|]. pose proof (Rle_0_sqr w). unfold Rsqr in *. lra. } generalize (Rle_0_sqr (Rabs w - 1)). unfold Rsqr. lra. }
    pose proof (K (z0 x)). pose proof (K (z0' x)). fold r. unfold R2 in *. nra. }
  destruct (atan_small eps He) as (e1 & He1 & Hat).
  set (k := Rmin 1 e1). assert (0 < k) as Hk by (apply Rmin_glb_lt; lra). pose proof (Rmin_l 1 e1) as Kl. pose proof (Rmin_r 1 e1) as Kr. fold k in Kl, Kr.
  set (d0 := rho * k / (2 * (C + 1) * B)). assert (0 < d0) as Hd0. { unfold d0. apply Rdiv_lt_0_compat; apply Rmult_lt_0_compat; lra. }
  exists (Rmin 1 d0). split; [apply Rmin_glb_lt; lra|].
  intros E z z' f HE Sol Za Za' A Ea x Hx.
  assert (Rabs (E - E0) < 1) as H1 by (eapply Rlt_le_trans; [exact HE|apply Rmin_l]). assert (Rabs (E - E0) < d0) as H2 by (eapply Rlt_le_trans; [exact HE|apply Rmin_r]).
  set (e := C * Rabs (E - E0)) in *. pose proof (Rabs_pos (E - E0)) as HP.
  assert (0 <= e) as He0 by (apply Rmult_le_pos; assumption).
  assert (e * B < rho * k / 2) as Small.
  { apply Rle_lt_trans with ((C + 1) * Rabs (E - E0) * B).
    - apply Rmult_le_compat_r; [lra|]. unfold e. apply Rmult_le_compat_r; lra.
    - apply Rlt_le_trans with ((C + 1) * d0 * B).
      + apply Rmult_lt_compat_r; [lra|]. apply Rmult_lt_compat_l; lra.
      + right. unfold d0. field. lra. }
  assert (forall t, lo <= t <= hi -> Rabs (z t - z0 t) <= e /\ Rabs (z' t - z0' t) <= e) as L by (intros t Ht; apply (Lip E z z'); auto; lra).
  assert (forall t, lo <= t <= hi -> Rabs ((z t - z0 t) * z0 t + (z' t - z0' t) * z0' t) <= e * B /\ Rabs ((z t - z0 t) * z0' t - (z' t - z0' t) * z0 t) <= e * B) as L2.
  { intros t Ht. destruct (L t Ht) as [L1 L1']. specialize (Bd t Ht). pose proof (Rabs_pos (z0 t)). pose proof (Rabs_pos (z0' t)). split.
    - eapply Rle_trans; [apply Rabs_triang|]. rewrite !Rabs_mult. apply Rle_trans with (e * Rabs (z0 t) + e * Rabs (z0' t)); [apply Rplus_le_compat; apply Rmult_le_compat_r; assumption|]. rewrite <- Rmult_plus_distr_l. apply Rmult_le_compat_l; assumption.
    - unfold Rminus at 1. eapply Rle_trans; [apply Rabs_triang|]. rewrite Rabs_Ropp, !Rabs_mult. apply Rle_trans with (e * Rabs (z0' t) + e * Rabs (z0 t)); [apply Rplus_le_compat; apply Rmult_le_compat_r; assumption|]. rewrite <- Rmult_plus_distr_l. apply Rmult_le_compat_l; lra. }
  assert (forall t, lo <= t <= hi -> rho / 2 <= z t * z0 t + z' t * z0' t) as Dot.
  { intros t Ht. destruct (L2 t Ht) as [Q _]. apply Rabs_le_between in Q. specialize (Hmin t Ht). fold rho in Hmin. unfold r in Hmin.
    assert (rho * k / 2 <= rho / 2) by (assert (rho * k <= rho * 1) by (apply Rmult_le_compat_l; lra); lra). lra. }
  destruct A as [Cf Af]. destruct A0 as [Cf0 Af0].
  rewrite (turn_between z z' z0 z0' lo hi f f0 Hlh (proj1 Sol) C0) with (a := a); try assumption.
  - apply Hat. rewrite Rabs_div by (specialize (Dot x Hx); lra).
    assert (Rabs (z x * z0' x - z' x * z0 x) <= e * B) as Q. { replace (z x * z0' x - z' x * z0 x) with ((z x - z0 x) * z0' x - (z' x - z0' x) * z0 x) by ring. apply L2, Hx. }
    specialize (Dot x Hx). rewrite (Rabs_right (z x * z0 x + z' x * z0' x)) by lra.
    apply (Rmult_lt_reg_r (z x * z0 x + z' x * z0' x)); [lra|]. unfold Rdiv at 1. rewrite Rmult_assoc, Rinv_l, Rmult_1_r by lra.
    apply Rle_lt_trans with (e * B); [exact Q|]. apply Rlt_le_trans with (rho * k / 2); [exact Small|].
    apply Rle_trans with (e1 * (rho / 2)); [|apply Rmult_le_compat_l; lra]. assert (rho * k <= rho * e1) by (apply Rmult_le_compat_l; lra). lra.
  - intros t Ht. specialize (Dot t Ht). lra.
  - split; [exact Cf|]. intros t Ht. specialize (Af t Ht). cbv beta in Af. lra.
  - split; [exact Cf0|]. intros t Ht. specialize (Af0 t Ht). cbv beta in Af0. lra.
Qed.
End Cont.

(** ---- rescaling *)
Lemma rescale_range : forall t sg, 0 < sg -> (0 <= t < PI -> 0 <= rescale t sg < PI) /\ (0 < t <= PI -> 0 < rescale t sg <= PI).
Proof.
  intros t sg Hs. pose proof PIpos.
  assert (rescale 0 sg = 0) as R0 by (rewrite rescale_atan by exact Hs; rewrite sin_0, Rmult_0_r, Rmult_0_l; unfold Rdiv; rewrite Rmult_0_l, atan_0; ring).
  assert (rescale PI sg = PI) as R1. { pose proof (rescale_shift 0 1 sg) as Q. rewrite Rplus_0_l, Rmult_1_l, R0, Rplus_0_l in Q. exact Q. }
  split; intros [H1 H2].
  - split; [rewrite <- R0; apply rescale_mono; assumption|]. rewrite <- R1. apply rescale_lt; assumption.
  - split; [rewrite <- R0 at 1; apply rescale_lt; assumption|]. rewrite <- R1. apply rescale_mono; assumption.
Qed.
Lemma rescale_inv : forall t sg, 0 < sg -> rescale (rescale t (/ sg)) sg = t.
Proof.
  intros t sg Hs. assert (0 < / sg) as Hi by (apply Rinv_0_lt_compat, Hs). pose proof PIpos.
  destruct (rescale_sincos t (/ sg) Hi) as (k & Hk & S1 & C1). destruct (rescale_sincos (rescale t (/ sg)) sg Hs) as (k' & Hk' & S2 & C2).
  pose proof (rescale_near t (/ sg) Hi) as N1. pose proof (rescale_near (rescale t (/ sg)) sg Hs) as N2.
  set (x := rescale (rescale t (/ sg)) sg) in *.
  assert (multiple_of_pi (x - t)) as MP.
  { apply (angles_pi (sin t) (cos t)).
    - destruct (Req_dec (sin t) 0) as [Z|Z]; [|left; exact Z]. right. intro Z'. pose proof (sin2_cos2 t) as Q. unfold Rsqr in Q. rewrite Z, Z' in Q. lra.
    - rewrite S2, C2, S1, C1. field. lra.
    - ring. }
  apply mult_pi_small in MP; lra.
Qed.
Lemma rescale_continuous2 : forall (A S : R -> R) x, continuous A x -> continuous S x -> (forall y, 0 < S y) -> continuous (fun y => rescale (A y) (S y)) x.
Proof.
  intros A S x CA CS HS. apply (continuous_ext (fun y => A y + atan ((S y - 1) * sin (A y) * cos (A y) / rden (S y) (A y)))); [intro y; symmetry; apply rescale_atan, HS|].
  assert (continuous (fun y => sin (A y)) x) as Cs by (apply (continuous_comp A sin); [exact CA|apply (ex_derive_continuous sin); eexists; apply is_derive_sin]).
  assert (continuous (fun y => cos (A y)) x) as Cc by (apply (continuous_comp A cos); [exact CA|apply (ex_derive_continuous cos); eexists; apply is_derive_cos]).
  assert (forall p q : R -> R, continuous p x -> continuous q x -> continuous (fun y => p y * q y) x) as KM by (intros p q Hp Hq; apply (continuous_mult p q); assumption).
  assert (continuous (fun y => S y - 1) x) as C1 by (apply (continuous_minus S (fun _ => 1)); [exact CS|apply continuous_const]).
  apply (continuous_plus A (fun y => atan ((S y - 1) * sin (A y) * cos (A y) / rden (S y) (A y)))); [exact CA|].
  apply (continuous_comp (fun y => (S y - 1) * sin (A y) * cos (A y) / rden (S y) (A y)) atan); [|apply atan_continuous].
  unfold Rdiv. apply KM; [apply KM; [apply KM; assumption|assumption]|].
  apply (continuous_comp (fun y => rden (S y) (A y)) Rinv).
  - unfold rden. apply (continuous_plus (fun _ => 1) (fun y => (S y - 1) * sin (A y) * sin (A y))); [apply continuous_const|]. apply KM; [apply KM; assumption|assumption].
  - apply (ex_derive_continuous Rinv). pose proof (rden_pos (S x) (A x) (HS x)). auto_derive. lra.
Qed.
Lemma scaling_continuous : forall vm E, continuous (scaling vm) E.
Proof.
  intros vm E. apply (continuous_ext (fun E => sqrt (Rmax 1 (E - vm)))).
  - intro x. unfold scaling. destruct (Rltb 1 (x - vm)) eqn:L; [apply Rltb_true in L; rewrite Rmax_right by lra; reflexivity|apply Rltb_false in L; rewrite Rmax_left by lra; apply sqrt_1].
  - apply (continuous_comp (fun E => Rmax 1 (E - vm)) sqrt).
    + apply lipschitz_continuous. intros a b. unfold Rmax, Rabs. repeat destruct (Rle_dec _ _); repeat destruct (Rcase_abs _); lra.
    + apply continuity_pt_filterlim. apply continuity_pt_sqrt. unfold Rmax. destruct (Rle_dec _ _); lra.
Qed.
