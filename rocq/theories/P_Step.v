(** One step of the angle: the increment computed by the code is the change of a continuous angle of the solution. *)
From Coq Require Import Reals ZArith Lra Lia.
From Coquelicot Require Import Coquelicot.
From Coq Require Import List.
From Verif Require Import Base M_Sectors M_Core S_Core P_Prufer S_Formulas P_Terms2 S_Zeros P_Lift P_Lift2 P_Cross P_Global2.
Import ListNotations.
Open Scope R_scope.

Notation nowhere_zero := nontrivial.
(** continuous angle of the scaled solution *)
Definition ang (s : R) (z z' : R -> R) (p q : R) (phi : R -> R) : Prop := lift (fun x => s * z x) z' p q phi.

Lemma scaled_nz : forall s z z' p q, 0 < s -> nowhere_zero z z' p q -> forall x, p <= x <= q -> s * z x <> 0 \/ z' x <> 0.
Proof. intros s z z' p q Hs H x Hx. destruct (H x Hx); [left; apply Rmult_integral_contrapositive_currified; [lra|assumption]|right; assumption]. Qed.
Lemma sol_cont : forall V E p q z z', sol_on V E p q z z' -> forall x, p <= x <= q -> continuous z x /\ continuous z' x.
Proof. intros V E p q z z' [H _]. exact H. Qed.

Lemma ang_exists : forall s z z' p q th, p <= q -> 0 < s -> (forall x, p <= x <= q -> continuous z x /\ continuous z' x) -> nowhere_zero z z' p q ->
  s * z p * cos th = z' p * sin th -> exists phi, ang s z z' p q phi /\ phi p = th.
Proof.
  intros s z z' p q th Hpq Hs C N H.
  destruct (lift_exists (fun x => s * z (clamp p q x)) (fun x => z' (clamp p q x)) p q Hpq) with (th := th) as (phi & L & E).
  - intro x. apply (continuous_mult (fun _ => s) (fun x => z (clamp p q x))); [apply continuous_const|]. apply clamp_comp_continuous; [exact Hpq|]. intros t Ht. apply C, Ht.
  - apply clamp_comp_continuous; [exact Hpq|]. intros t Ht. apply C, Ht.
  - intros x Hx. rewrite !clamp_id by exact Hx. apply (scaled_nz s z z' p q); auto.
  - rewrite clamp_id by lra. exact H.
  - exists phi. split; [|exact E]. destruct L as [L1 L2]. split; [exact L1|]. intros x Hx. specialize (L2 x Hx). rewrite clamp_id in L2 by exact Hx. exact L2.
Qed.

Lemma ang_polar : forall s z z' p q phi, 0 < s -> (forall x, p <= x <= q -> continuous z x /\ continuous z' x) -> nowhere_zero z z' p q -> ang s z z' p q phi ->
  exists c : R -> R, forall x, p <= x <= q -> 0 < c p * c x /\ s * z x = c x * sin (phi x) /\ z' x = c x * cos (phi x).
Proof.
  intros s z z' p q phi Hs C N A. apply (lift_polar (fun x => s * z x) z' p q phi).
  - intros x Hx. apply (continuous_mult (fun _ => s) z); [apply continuous_const|apply C, Hx].
  - intros x Hx. apply C, Hx.
  - apply (scaled_nz s z z' p q); auto.
  - exact A.
Qed.

Lemma ang_zero : forall s z z' p q phi, 0 < s -> nowhere_zero z z' p q -> ang s z z' p q phi -> forall x, p <= x <= q -> (z x = 0 <-> multiple_of_pi (phi x)).
Proof.
  intros s z z' p q phi Hs N [_ A] x Hx. specialize (A x Hx). cbv beta in A. split; intro H.
  - apply sin_zero_multiple. destruct (N x Hx) as [H1|H1]; [congruence|]. rewrite H in A. apply (Rmult_eq_reg_l (z' x)); [|exact H1]. lra.
  - destruct H as [k Ek]. rewrite Ek in A. destruct (sincos_shift 0 k) as [e [He [S C]]]. rewrite Rplus_0_l in S, C. rewrite S, C, sin_0, cos_0 in A.
    destruct He as [-> | ->]; apply (Rmult_eq_reg_l s); lra.
Qed.

Lemma shift_sign : forall k, exists e, e * e = 1 /\ forall t, sin (t + IZR k * PI) = e * sin t /\ cos (t + IZR k * PI) = e * cos t.
Proof.
  intro k. destruct (sincos_shift 0 k) as [e0 [He0 [S0 C0]]]. rewrite Rplus_0_l in S0, C0. rewrite sin_0 in S0. rewrite cos_0 in C0.
  exists e0. split; [destruct He0 as [-> | ->]; ring|]. intro t. rewrite sin_plus, cos_plus, S0, C0. split; ring.
Qed.
Lemma sin_level : forall k a b, IZR k * PI < a < (IZR k + 1) * PI -> IZR k * PI < b < (IZR k + 1) * PI -> 0 < sin a * sin b.
Proof.
  intros k a b Ha Hb. destruct (shift_sign k) as (e & He & H).
  replace a with ((a - IZR k * PI) + IZR k * PI) by ring. replace b with ((b - IZR k * PI) + IZR k * PI) by ring.
  rewrite (proj1 (H (a - IZR k * PI))), (proj1 (H (b - IZR k * PI))).
  replace (e * sin (a - IZR k * PI) * (e * sin (b - IZR k * PI))) with ((e * e) * (sin (a - IZR k * PI) * sin (b - IZR k * PI))) by ring. rewrite He, Rmult_1_l.
  apply Rmult_lt_0_compat; apply sin_gt_0; lra.
Qed.

(** ---- crossings go upwards *)
Lemma cross : forall V E s z z' p q phi, 0 < s -> sol_on V E p q z z' -> nowhere_zero z z' p q -> ang s z z' p q phi ->
  forall k x, p <= x <= q -> phi x = IZR k * PI ->
  exists d, 0 < d /\ forall y, p <= y <= q -> Rabs (y - x) < d -> (x < y -> IZR k * PI < phi y) /\ (y < x -> phi y < IZR k * PI).
Proof.
  intros V E s z z' p q phi Hs [C D] N A k x Hx Ek. pose proof PIpos as HP.
  assert (z x = 0) as Z0 by (apply (ang_zero s z z' p q phi); auto; exists k; exact Ek).
  assert (z' x <> 0) as Z1 by (destruct (N x Hx); [congruence|assumption]).
  assert (0 < z' x * z' x) as Z2 by nra.
  destruct (near_pos (fun t => z' x * z' t) x 0) as (d1 & Hd1 & H1).
  { apply (continuous_mult (fun _ => z' x) z'); [apply continuous_const|apply C, Hx]. }
  { exact Z2. }
  destruct A as [Cphi A]. destruct (near phi x (PI / 2) (Cphi x) ltac:(lra)) as (d2 & Hd2 & H2).
  exists (Rmin d1 d2). split; [apply Rmin_glb_lt; assumption|]. intros y Hy Hyd.
  assert (Rabs (y - x) < d1) as Y1 by (eapply Rlt_le_trans; [exact Hyd|apply Rmin_l]).
  assert (Rabs (y - x) < d2) as Y2 by (eapply Rlt_le_trans; [exact Hyd|apply Rmin_r]).
  specialize (H2 y Y2). apply Rabs_def2 in H2. rewrite Ek in H2. set (dd := phi y - IZR k * PI) in *.
  pose proof (H1 y Y1) as Py.
  assert (s * z y * cos dd = z' y * sin dd) as Ay.
  { specialize (A y Hy). cbv beta in A. replace (phi y) with (dd + IZR k * PI) in A by (unfold dd; ring).
    destruct (sincos_shift dd k) as [e [He [S Co]]]. rewrite S, Co in A. destruct He as [-> | ->]; lra. }
  assert (0 < cos dd) as Hc by (apply cos_gt_0; lra).
  destruct (MVT_gen z x y z') as (c & Hc1 & Hc2).
  { intros t Ht. apply D. split; [eapply Rle_lt_trans; [|apply Ht]; apply Rmin_glb; lra|eapply Rlt_le_trans; [apply Ht|]; apply Rmax_lub; lra]. }
  { intros t Ht. apply continuity_pt_filterlim. apply C. split; [eapply Rle_trans; [|apply Ht]; apply Rmin_glb; lra|eapply Rle_trans; [apply Ht|]; apply Rmax_lub; lra]. }
  assert (0 < z' x * z' c) as Pc.
  { apply H1. eapply Rle_lt_trans; [|exact Y1]. revert Hc1. unfold Rmin, Rmax. destruct (Rle_dec x y); intro Hc1; unfold Rabs; destruct (Rcase_abs (c - x)), (Rcase_abs (y - x)); lra. }
  rewrite Z0, Rminus_0_r in Hc2. rewrite Hc2 in Ay.
  assert (s * (z' x * z' c) * (y - x) * cos dd = (z' x * z' y) * sin dd) as Q.
  { transitivity (z' x * (s * (z' c * (y - x)) * cos dd)); [ring|]. rewrite Ay. ring. }
  set (A1 := z' x * z' c) in *. set (A2 := z' x * z' y) in *. clearbody A1 A2.
  assert (0 < s * A1 * cos dd) as P1 by (repeat apply Rmult_lt_0_compat; assumption).
  split; intro L.
  - assert (0 < sin dd) as Sd.
    { assert (0 < A2 * sin dd) as X; [rewrite <- Q; replace (s * A1 * (y - x) * cos dd) with (s * A1 * cos dd * (y - x)) by ring; apply Rmult_lt_0_compat; lra|].
      destruct (Rlt_le_dec 0 (sin dd)) as [|L2]; [assumption|]. assert (A2 * sin dd <= A2 * 0) by (apply Rmult_le_compat_l; lra). lra. }
    destruct (Rlt_le_dec 0 dd) as [|L2]; [unfold dd in *; lra|]. exfalso.
    assert (0 <= sin (- dd)) as B by (apply sin_ge_0; lra). rewrite sin_neg in B. lra.
  - assert (sin dd < 0) as Sd.
    { assert (A2 * sin dd < 0) as X; [rewrite <- Q; replace (s * A1 * (y - x) * cos dd) with (- (s * A1 * cos dd * (x - y))) by ring; assert (0 < s * A1 * cos dd * (x - y)) by (apply Rmult_lt_0_compat; lra); lra|].
      destruct (Rlt_le_dec (sin dd) 0) as [|L2]; [assumption|]. assert (A2 * 0 <= A2 * sin dd) by (apply Rmult_le_compat_l; lra). lra. }
    destruct (Rlt_le_dec dd 0) as [|L2]; [unfold dd in *; lra|]. exfalso.
    assert (0 <= sin dd) as B by (apply sin_ge_0; lra). lra.
Qed.
Lemma ang_up_right : forall V E s z z' p q phi, 0 < s -> sol_on V E p q z z' -> nowhere_zero z z' p q -> ang s z z' p q phi -> up_right phi p q.
Proof.
  intros V E s z z' p q phi Hs H N A k x Hx Ek. destruct (cross V E s z z' p q phi Hs H N A k x ltac:(lra) Ek) as (d & Hd & Hc).
  exists d. split; [exact Hd|]. intros y Hy Hq. apply (Hc y); [lra|apply Rabs_def1; lra|lra].
Qed.
Lemma ang_up_left : forall V E s z z' p q phi, 0 < s -> sol_on V E p q z z' -> nowhere_zero z z' p q -> ang s z z' p q phi -> up_left phi p q.
Proof.
  intros V E s z z' p q phi Hs H N A k x Hx Ek. destruct (cross V E s z z' p q phi Hs H N A k x ltac:(lra) Ek) as (d & Hd & Hc).
  exists d. split; [exact Hd|]. intros y Hy Hq. apply (Hc y); [lra|apply Rabs_def1; lra|lra].
Qed.
Lemma ang_level : forall V E s z z' p q phi, 0 < s -> sol_on V E p q z z' -> nowhere_zero z z' p q -> ang s z z' p q phi ->
  forall k, p < q -> IZR k * PI <= phi p -> IZR k * PI < phi q.
Proof.
  intros V E s z z' p q phi Hs H N A k Hpq Hk. apply (level_up phi p q) with (x := p); try lra; [apply A|eapply ang_up_right|eapply ang_up_left]; eassumption.
Qed.

(** ---- changing the scale *)
Lemma rescale_continuous : forall sg, 0 < sg -> forall t, continuous (fun t => rescale t sg) t.
Proof.
  intros sg H t. apply (continuous_ext (fun t => t + atan ((sg - 1) * sin t * cos t / rden sg t))).
  - intro x. symmetry. apply rescale_atan, H.
  - apply (ex_derive_continuous (fun t => t + atan ((sg - 1) * sin t * cos t / rden sg t))). eexists. apply is_derive_rescale, H.
Qed.
Lemma rescale_lt : forall sg a b, 0 < sg -> a < b -> rescale a sg < rescale b sg.
Proof.
  intros sg a b H L. rewrite !rescale_atan by auto.
  set (f := fun t => t + atan ((sg - 1) * sin t * cos t / rden sg t)). change (f a < f b).
  destruct (MVT_gen f a b (fun t => sg / (cos t * cos t + sg * sg * (sin t * sin t)))) as (c & Hc & E).
  - intros t _. apply is_derive_rescale, H.
  - intros t _. apply continuity_pt_filterlim. apply (ex_derive_continuous f). eexists. apply is_derive_rescale, H.
  - assert (0 < sg / (cos c * cos c + sg * sg * (sin c * sin c))) as P.
    { apply Rdiv_lt_0_compat; [exact H|]. pose proof (sin2_cos2 c) as S. unfold Rsqr in S.
      assert (0 <= sin c * sin c) by apply Rle_0_sqr. assert (0 <= cos c * cos c) by apply Rle_0_sqr. assert (0 < sg * sg) by (apply Rmult_lt_0_compat; assumption).
      destruct (Rle_lt_or_eq_dec 0 (sin c * sin c)) as [L1|L1]; [assumption| |]; [assert (0 < sg * sg * (sin c * sin c)) by (apply Rmult_lt_0_compat; assumption); lra|rewrite <- L1; lra]. }
    assert (0 < sg / (cos c * cos c + sg * sg * (sin c * sin c)) * (b - a)) by (apply Rmult_lt_0_compat; [exact P|lra]). lra.
Qed.
Lemma ang_rescale : forall w s z z' p q psi, 0 < w -> 0 < s -> ang w z z' p q psi -> ang s z z' p q (fun x => rescale (psi x) (s / w)).
Proof.
  intros w s z z' p q psi Hw Hs [C A]. assert (0 < s / w) by (apply Rdiv_lt_0_compat; assumption). split.
  - intro x. apply (continuous_comp psi (fun t => rescale t (s / w))); [apply C|apply rescale_continuous; assumption].
  - intros x Hx. cbv beta. apply rescale_angle; [assumption|assumption|]. rewrite <- (A x Hx). ring.
Qed.
Lemma ang_change : forall w s z z' p q psi phi, 0 < w -> 0 < s -> nowhere_zero z z' p q -> ang w z z' p q psi -> ang s z z' p q phi -> p <= q ->
  phi q - phi p = rescale (psi q) (s / w) - rescale (psi p) (s / w).
Proof.
  intros w s z z' p q psi phi Hw Hs N A B Hpq.
  apply (lift_unique (fun x => s * z x) z' p q phi (fun x => rescale (psi x) (s / w))); [apply (scaled_nz s z z' p q); assumption|exact B|apply ang_rescale; assumption|lra].
Qed.
Lemma change_le : forall w s z z' p q psi phi, 0 < w -> 0 < s -> nowhere_zero z z' p q -> ang w z z' p q psi -> ang s z z' p q phi -> p <= q ->
  phi p <= phi q -> psi p <= psi q.
Proof.
  intros w s z z' p q psi phi Hw Hs N A B Hpq L. pose proof (ang_change w s z z' p q psi phi Hw Hs N A B Hpq) as E.
  destruct (Rle_lt_dec (psi p) (psi q)) as [|H]; [assumption|exfalso]. apply (rescale_lt (s / w)) in H; [|apply Rdiv_lt_0_compat; assumption]. lra.
Qed.
Lemma change_lt_pi : forall w s z z' p q psi phi, 0 < w -> 0 < s -> nowhere_zero z z' p q -> ang w z z' p q psi -> ang s z z' p q phi -> p <= q ->
  phi q < phi p + PI -> psi q < psi p + PI.
Proof.
  intros w s z z' p q psi phi Hw Hs N A B Hpq L. pose proof (ang_change w s z z' p q psi phi Hw Hs N A B Hpq) as E.
  destruct (Rlt_le_dec (psi q) (psi p + PI)) as [|H]; [assumption|exfalso]. apply (rescale_mono (s / w)) in H; [|apply Rdiv_lt_0_compat; assumption].
  replace (psi p + PI) with (psi p + IZR 1 * PI) in H by ring. rewrite rescale_shift in H. lra.
Qed.

(** ---- speed of the angle *)
Lemma ang_derive : forall V E s z z' p q phi, 0 < s -> sol_on V E p q z z' -> nowhere_zero z z' p q -> ang s z z' p q phi ->
  forall x, p < x < q -> is_derive phi x (s * (z' x * z' x + (E - V x) * (z x * z x)) / (s * s * (z x * z x) + z' x * z' x)).
Proof.
  intros V E s z z' p q phi Hs [C D] N A x Hx. destruct (D x Hx) as [D1 D2].
  evar_last.
  - apply (lift_derive (fun x => s * z x) z' p q phi x (s * z' x) ((V x - E) * z x) A Hx).
    + apply (scaled_nz s z z' p q Hs N). lra.
    + evar_last; [apply (is_derive_scal z x s), D1|]. unfold scal; simpl; unfold mult; simpl. reflexivity.
    + exact D2.
  - cbv beta. replace (s * z x * (s * z x) + z' x * z' x) with (s * s * (z x * z x) + z' x * z' x) by ring. unfold Rdiv. f_equal. ring.
Qed.
Lemma den_pos : forall s z z' p q, 0 < s -> nowhere_zero z z' p q -> forall x, p <= x <= q -> 0 < s * s * (z x * z x) + z' x * z' x.
Proof.
  intros s z z' p q Hs N x Hx. assert (0 < s * s) by nra. assert (0 <= z x * z x) by apply Rle_0_sqr. assert (0 <= z' x * z' x) by apply Rle_0_sqr.
  destruct (N x Hx) as [G1|G1].
  - assert (0 < z x * z x) by nra. assert (0 < s * s * (z x * z x)) by (apply Rmult_lt_0_compat; assumption). lra.
  - assert (0 < z' x * z' x) by nra. assert (0 <= s * s * (z x * z x)) by (apply Rmult_le_pos; lra). lra.
Qed.
Lemma open_mvt : forall (f g : R -> R) p q, p <= q -> (forall x, p < x < q -> is_derive f x (g x)) -> (forall x, p <= x <= q -> continuous f x) ->
  (forall x, p < x < q -> g x <= 0) -> f q <= f p.
Proof.
  intros f g p q Hpq D C G.
  set (df := fun x => if Rlt_dec p x then (if Rlt_dec x q then g x else 0) else 0).
  destruct (MVT_gen f p q df) as (c & Hc & Ec); rewrite ?Rmin_left, ?Rmax_right in * by lra.
  - intros x Hx. unfold df. destruct (Rlt_dec p x); [|lra]. destruct (Rlt_dec x q); [|lra]. apply D, Hx.
  - intros x Hx. apply continuity_pt_filterlim, C, Hx.
  - assert (df c <= 0). { unfold df. destruct (Rlt_dec p c); [|lra]. destruct (Rlt_dec c q); [|lra]. apply G; lra. }
    assert (df c * (q - p) <= 0 * (q - p)) by (apply Rmult_le_compat_r; lra). lra.
Qed.
Lemma ang_advance : forall V E m z z' p q phi, 0 < m -> sol_on V E p q z z' -> nowhere_zero z z' p q -> ang m z z' p q phi -> p <= q ->
  (forall x, p < x < q -> E - V x <= m * m) -> phi q - phi p <= m * (q - p).
Proof.
  intros V E m z z' p q phi Hm H N A Hpq HV.
  pose proof (open_mvt (fun x => phi x - m * x) (fun x => m * (z' x * z' x + (E - V x) * (z x * z x)) / (m * m * (z x * z x) + z' x * z' x) - m) p q Hpq) as G.
  cbv beta in G. enough (phi q - m * q <= phi p - m * p) by lra. apply G; clear G.
  - intros x Hx. pose proof (ang_derive V E m z z' p q phi Hm H N A x Hx) as D.
    evar_last; [apply (is_derive_minus phi (fun x => m * x)); [exact D|apply (is_derive_scal (fun x => x) x m), is_derive_id]|].
    unfold minus, plus, opp, scal, one; simpl; unfold mult; simpl. ring.
  - intros x Hx. apply (continuous_minus phi (fun x => m * x)); [apply A|]. apply (continuous_mult (fun _ => m) (fun x => x)); [apply continuous_const|apply continuous_id].
  - intros x Hx. pose proof (den_pos m z z' p q Hm N x ltac:(lra)) as P. specialize (HV x Hx).
    assert (m * (z' x * z' x + (E - V x) * (z x * z x)) / (m * m * (z x * z x) + z' x * z' x) <= m); [|lra].
    apply (Rmult_le_reg_r (m * m * (z x * z x) + z' x * z' x)); [exact P|]. unfold Rdiv. rewrite (Rmult_assoc _ (/ _) _), Rinv_l, Rmult_1_r by lra.
    apply Rmult_le_compat_l; [lra|]. assert (0 <= z x * z x) by apply Rle_0_sqr. assert ((E - V x) * (z x * z x) <= m * m * (z x * z x)) by (apply Rmult_le_compat_r; assumption). lra.
Qed.
Lemma ang_speed : forall V E v w D z z' p q phi, 0 < w -> w * w = E - v -> sol_on V E p q z z' -> nowhere_zero z z' p q -> ang w z z' p q phi -> p <= q ->
  (forall x, p < x < q -> Rabs (V x - v) <= D) -> Rabs (phi q - phi p - w * (q - p)) <= D / w * (q - p).
Proof.
  intros V E v w D z z' p q phi Hw Ew H N A Hpq HV.
  set (g := fun x => w * (z' x * z' x + (E - V x) * (z x * z x)) / (w * w * (z x * z x) + z' x * z' x)).
  assert (forall x, p < x < q -> Rabs (g x - w) <= D / w) as G.
  { intros x Hx. pose proof (den_pos w z z' p q Hw N x ltac:(lra)) as P. specialize (HV x Hx). assert (0 <= D) by (eapply Rle_trans; [apply Rabs_pos|exact HV]).
    assert (g x - w = (v - V x) * (w * (z x * z x) / (w * w * (z x * z x) + z' x * z' x))) as ->.
    { unfold g. replace (E - V x) with (w * w + (v - V x)) by lra. field. lra. }
    rewrite Rabs_mult, (Rabs_minus_sym v (V x)). unfold Rdiv at 2.
    assert (0 <= z x * z x) by apply Rle_0_sqr. assert (0 <= z' x * z' x) by apply Rle_0_sqr.
    apply Rmult_le_compat; try apply Rabs_pos; [exact HV|]. rewrite Rabs_pos_eq.
    - apply (Rmult_le_reg_r (w * w * (z x * z x) + z' x * z' x)); [exact P|]. unfold Rdiv. rewrite (Rmult_assoc _ (/ _) _), Rinv_l, Rmult_1_r by lra.
      apply (Rmult_le_reg_l w); [exact Hw|]. rewrite <- (Rmult_assoc w (/ w)), Rinv_r, Rmult_1_l by lra. lra.
    - apply Rmult_le_pos; [apply Rmult_le_pos; lra|left; apply Rinv_0_lt_compat, P]. }
  assert (forall x, p < x < q -> is_derive phi x (g x)) as Dg by (intros x Hx; apply (ang_derive V E w z z' p q phi); assumption).
  assert (forall k x : R, continuous (fun x => k * x) x) as Ck by (intros k x; apply (continuous_mult (fun _ => k) (fun x => x)); [apply continuous_const|apply continuous_id]).
  assert (forall k x : R, is_derive (fun x => k * x) x k) as Dk by (intros k x; evar_last; [apply (is_derive_scal (fun x => x) x k), is_derive_id|unfold scal, one; simpl; unfold mult; simpl; ring]).
  apply Rabs_le. split.
  - pose proof (open_mvt (fun x => (w - D / w) * x - phi x) (fun x => (w - D / w) - g x) p q Hpq) as M. cbv beta in M.
    enough ((w - D / w) * q - phi q <= (w - D / w) * p - phi p) by lra. apply M; clear M.
    + intros x Hx. apply (is_derive_minus (fun x => (w - D / w) * x) phi); [apply Dk|apply Dg, Hx].
    + intros x Hx. apply (continuous_minus (fun x => (w - D / w) * x) phi); [apply Ck|apply A].
    + intros x Hx. specialize (G x Hx). apply Rabs_le_between in G. lra.
  - pose proof (open_mvt (fun x => phi x - (w + D / w) * x) (fun x => g x - (w + D / w)) p q Hpq) as M. cbv beta in M.
    enough (phi q - (w + D / w) * q <= phi p - (w + D / w) * p) by lra. apply M; clear M.
    + intros x Hx. apply (is_derive_minus phi (fun x => (w + D / w) * x)); [apply Dg, Hx|apply Dk].
    + intros x Hx. apply (continuous_minus phi (fun x => (w + D / w) * x)); [apply A|apply Ck].
    + intros x Hx. specialize (G x Hx). apply Rabs_le_between in G. lra.
Qed.

(** ---- the angle does not decrease over a stretch on which the mean of V is at most E *)
Lemma ang_nondecr : forall V E s z z' p q phi, 0 < s -> sol_on V E p q z z' -> nowhere_zero z z' p q -> ang s z z' p q phi -> p <= q ->
  mean_at_most V p q E -> phi p <= phi q.
Proof.
  intros V E s z z' p q phi Hs H N A Hpq (W & W1 & W2 & W3). pose proof PIpos as HP.
  destruct Hpq as [Hpq| ->]; [|lra].
  destruct (level_count phi p q ltac:(lra)) as (l & _ & L2 & L3); [apply A|apply (ang_up_right V E s z z' p q phi); assumption|apply (ang_up_left V E s z z' p q phi); assumption|].
  destruct (Z.eq_dec (flr (phi p)) (flr (phi q))) as [E1|E1].
  - assert (l = []) as -> by (destruct l; [reflexivity|simpl in L3; lia]).
    destruct (Req_dec (z p) 0) as [Zp|Zp].
    + apply (ang_zero s z z' p q phi) in Zp; [|assumption|assumption|assumption|lra]. destruct Zp as [k Ek].
      left. rewrite Ek. apply (ang_level V E s z z' p q phi); try assumption. lra.
    + assert (forall x, p <= x <= q -> z x <> 0) as NZ.
      { intros x Hx. destruct (proj1 Hx) as [L|Ep]; [|rewrite <- Ep; exact Zp]. intro Z0. apply (ang_zero s z z' p q phi) in Z0; try assumption.
        destruct (proj2 (L2 x) (conj (conj L (proj2 Hx)) Z0)). }
      destruct H as [C D].
      assert (z' q / z q - (W q - E * q) <= z' p / z p - (W p - E * p)) as M.
      { apply (open_mvt (fun x => z' x / z x - (W x - E * x)) (fun x => - (z' x / z x * (z' x / z x)))); [lra| | |].
        - intros x Hx. destruct (D x Hx) as [D1 D2]. pose proof (NZ x ltac:(lra)) as Zx.
          evar_last; [apply (is_derive_minus (fun x => z' x / z x) (fun x => W x - E * x)); [apply (is_derive_div z' z x _ _ D2 D1 Zx)|apply (is_derive_minus W (fun x => E * x)); [apply W2, Hx|apply (is_derive_scal (fun x => x) x E), is_derive_id]]|].
          unfold minus, plus, opp, scal, one; simpl; unfold mult; simpl. field. exact Zx.
        - intros x Hx. destruct (C x Hx) as [C1 C2]. apply (continuous_minus (fun x => z' x / z x) (fun x => W x - E * x)).
          + apply (continuous_mult z' (fun x => / z x)); [exact C2|]. apply continuous_Rinv_comp; [exact C1|apply NZ, Hx].
          + apply (continuous_minus W (fun x => E * x)); [apply W1, Hx|]. apply (continuous_mult (fun _ => E) (fun x => x)); [apply continuous_const|apply continuous_id].
        - intros x Hx. assert (0 <= z' x / z x * (z' x / z x)) by apply Rle_0_sqr. lra. }
      assert (z' q / z q <= z' p / z p) as M2 by lra.
      destruct (ang_polar s z z' p q phi Hs C N A) as (c & Hc).
      destruct (Hc p ltac:(lra)) as (P0 & P1 & P2). destruct (Hc q ltac:(lra)) as (Q0 & Q1 & Q2).
      pose proof (flr_spec (phi p)) as F1. pose proof (flr_spec (phi q)) as F2. rewrite <- E1 in F2. set (k := flr (phi p)) in *.
      destruct (Rle_lt_dec (phi p) (phi q)) as [|L]; [assumption|exfalso].
      assert (0 < sin (phi p - phi q)) as S by (apply sin_gt_0; lra).
      rewrite sin_minus in S.
      pose proof (NZ q ltac:(lra)) as Zq.
      assert (0 < z p * z q) as Pz.
      { assert (0 < sin (phi p) * sin (phi q)) as SS.
        { assert (phi p <> IZR k * PI) as Np by (intro X; apply Zp; apply (ang_zero s z z' p q phi); auto; [lra|exists k; exact X]).
          assert (phi q <> IZR k * PI) as Nq by (intro X; apply Zq; apply (ang_zero s z z' p q phi); auto; [lra|exists k; exact X]).
          apply (sin_level k); lra. }
        assert (0 < (s * z p) * (s * z q)) as X.
        { rewrite P1, Q1. replace (c p * sin (phi p) * (c q * sin (phi q))) with ((c p * c q) * (sin (phi p) * sin (phi q))) by ring. apply Rmult_lt_0_compat; assumption. }
        replace (s * z p * (s * z q)) with ((s * s) * (z p * z q)) in X by ring. assert (0 < s * s) by nra.
        destruct (Rlt_le_dec 0 (z p * z q)) as [|L4]; [assumption|]. assert (s * s * (z p * z q) <= s * s * 0) by (apply Rmult_le_compat_l; lra). lra. }
      assert (z' q * z p <= z' p * z q) as M3.
      { replace (z' q * z p) with (z' q / z q * (z p * z q)) by (field; exact Zq). replace (z' p * z q) with (z' p / z p * (z p * z q)) by (field; exact Zp).
        apply Rmult_le_compat_r; lra. }
      assert ((c p * c q) * (sin (phi p) * cos (phi q) - cos (phi p) * sin (phi q)) = s * (z' q * z p - z' p * z q)) as M4.
      { rewrite P2, Q2. transitivity ((c p * sin (phi p)) * (c q * cos (phi q)) - (c p * cos (phi p)) * (c q * sin (phi q))); [ring|]. rewrite <- P1, <- Q1. ring. }
      assert (0 < (c p * c q) * (sin (phi p) * cos (phi q) - cos (phi p) * sin (phi q))) as M5 by (apply Rmult_lt_0_compat; assumption).
      rewrite M4 in M5. assert (s * (z' q * z p - z' p * z q) <= s * 0) by (apply Rmult_le_compat_l; lra). lra.
  - assert (flr (phi p) + 1 <= flr (phi q))%Z as L4 by lia. apply flr_ge in L4. rewrite plus_IZR in L4. pose proof (flr_spec (phi p)). lra.
Qed.
