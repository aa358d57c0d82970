(** Whole propagations: one sector step against the true solution, accumulation over the sectors. *)
From Coq Require Import String Reals ZArith Lra Lia.
From Coquelicot Require Import Coquelicot.
From Coq Require Import List Bool.
From Verif Require Import Base S_Sectors S_Legendre S_Formulas M_Sectors M_Core S_Core M_Formulas S_Accuracy P_Core P_Core2 P_Global.
Import ListNotations.
Open Scope R_scope.

(** ---- 2x2 estimates *)
Definition N1 (a b : R) : R := Rabs a + Rabs b.
Lemma N1_nonneg : forall a b, 0 <= N1 a b. Proof. intros; unfold N1. pose proof (Rabs_pos a); pose proof (Rabs_pos b); lra. Qed.
Lemma N1_triang : forall a b c d, N1 (a + c) (b + d) <= N1 a b + N1 c d.
Proof. intros. unfold N1. pose proof (Rabs_triang a c). pose proof (Rabs_triang b d). lra. Qed.
Lemma mat_bound : forall p q r s a b m, Rabs p + Rabs r <= m -> Rabs q + Rabs s <= m -> N1 (p * a + q * b) (r * a + s * b) <= m * N1 a b.
Proof.
  intros p q r s a b m H1 H2. unfold N1.
  pose proof (Rabs_triang (p * a) (q * b)) as A1. pose proof (Rabs_triang (r * a) (s * b)) as A2. rewrite !Rabs_mult in A1, A2.
  assert ((Rabs p + Rabs r) * Rabs a <= m * Rabs a) by (apply Rmult_le_compat_r; [apply Rabs_pos|assumption]).
  assert ((Rabs q + Rabs s) * Rabs b <= m * Rabs b) by (apply Rmult_le_compat_r; [apply Rabs_pos|assumption]). lra.
Qed.
Definition dist (Y0 : Y) (a b : R) : R := N1 (y0 Y0 - a) (y1 Y0 - b).

(** one multiplication by T, F exact with F Y0 near the exact (za, zb) *)
Lemma forward_step : forall T c d c' d' eta kh Z a b za zb w, nearT T c d c' d' eta ->
  Rabs (c - 1) <= kh -> Rabs c' <= kh -> Rabs d <= kh -> Rabs (d' - 1) <= kh -> 0 <= eta ->
  N1 (za - (c * a + d * b)) (zb - (c' * a + d' * b)) <= w ->
  dist (tmul T Z) za zb <= (1 + 2 * kh + 2 * eta) * dist Z a b + 2 * eta * N1 a b + w.
Proof.
  intros T c d c' d' eta kh Z a b za zb w (T0 & T1 & T2 & T3) C1 C2 C3 C4 He Hw. unfold dist, tmul. cbn [y0 y1].
  replace (t00 T * y0 Z + t01 T * y1 Z - za) with
    ((t00 T * (y0 Z - a) + t01 T * (y1 Z - b)) + (((t00 T - c) * a + (t01 T - d) * b) + - (za - (c * a + d * b)))) by ring.
  replace (t10 T * y0 Z + t11 T * y1 Z - zb) with
    ((t10 T * (y0 Z - a) + t11 T * (y1 Z - b)) + (((t10 T - c') * a + (t11 T - d') * b) + - (zb - (c' * a + d' * b)))) by ring.
  eapply Rle_trans; [apply N1_triang|]. apply Rle_trans with ((1 + 2 * kh + 2 * eta) * N1 (y0 Z - a) (y1 Z - b) + (2 * eta * N1 a b + w)); [|lra]. apply Rplus_le_compat.
  - apply mat_bound.
    + replace (t00 T) with ((t00 T - c) + (c - 1) + 1) by ring. replace (t10 T) with ((t10 T - c') + c') by ring.
      pose proof (Rabs_triang (t00 T - c + (c - 1)) 1). pose proof (Rabs_triang (t00 T - c) (c - 1)). pose proof (Rabs_triang (t10 T - c') c'). rewrite Rabs_R1 in *. lra.
    + replace (t11 T) with ((t11 T - d') + (d' - 1) + 1) by ring. replace (t01 T) with ((t01 T - d) + d) by ring.
      pose proof (Rabs_triang (t11 T - d' + (d' - 1)) 1). pose proof (Rabs_triang (t11 T - d') (d' - 1)). pose proof (Rabs_triang (t01 T - d) d). rewrite Rabs_R1 in *. lra.
  - eapply Rle_trans; [apply N1_triang|]. apply Rplus_le_compat; [apply mat_bound; lra|]. unfold N1 in *. rewrite !Rabs_Ropp. exact Hw.
Qed.
(** one multiplication by the adjugate *)
Lemma backward_step : forall T c d c' d' eta kh Z a b za zb w, nearT T c d c' d' eta -> c * d' - d * c' = 1 ->
  Rabs (c - 1) <= kh -> Rabs c' <= kh -> Rabs d <= kh -> Rabs (d' - 1) <= kh -> 0 <= eta ->
  N1 (za - (c * a + d * b)) (zb - (c' * a + d' * b)) <= w ->
  dist (tdiv T Z) a b <= (1 + 2 * kh + 2 * eta) * (dist Z za zb + w) + 2 * eta * ((1 + 2 * kh) * N1 a b).
Proof.
  intros T c d c' d' eta kh Z a b za zb w (T0 & T1 & T2 & T3) Det C1 C2 C3 C4 He Hw. unfold dist, tdiv, tmul. cbn [y0 y1 t00 t01 t10 t11].
  set (fa := c * a + d * b) in *. set (fb := c' * a + d' * b) in *.
  assert (a = d' * fa - d * fb) as Ea by (unfold fa, fb; transitivity ((c * d' - d * c') * a); [rewrite Det|]; ring).
  assert (b = c * fb - c' * fa) as Eb by (unfold fa, fb; transitivity ((c * d' - d * c') * b); [rewrite Det|]; ring).
  replace (t11 T * y0 Z + - t01 T * y1 Z - a) with
    ((t11 T * ((y0 Z - za) + (za - fa)) + (- t01 T) * ((y1 Z - zb) + (zb - fb))) + ((t11 T - d') * fa + (- (t01 T - d)) * fb)) by (rewrite Ea at 1; ring).
  replace (- t10 T * y0 Z + t00 T * y1 Z - b) with
    (((- t10 T) * ((y0 Z - za) + (za - fa)) + t00 T * ((y1 Z - zb) + (zb - fb))) + ((- (t10 T - c')) * fa + (t00 T - c) * fb)) by (rewrite Eb at 1; ring).
  assert (Rabs (t00 T) <= eta + kh + 1).
  { replace (t00 T) with ((t00 T - c) + (c - 1) + 1) by ring.
    pose proof (Rabs_triang (t00 T - c + (c - 1)) 1). pose proof (Rabs_triang (t00 T - c) (c - 1)). rewrite Rabs_R1 in *. lra. }
  assert (Rabs (t11 T) <= eta + kh + 1).
  { replace (t11 T) with ((t11 T - d') + (d' - 1) + 1) by ring.
    pose proof (Rabs_triang (t11 T - d' + (d' - 1)) 1). pose proof (Rabs_triang (t11 T - d') (d' - 1)). rewrite Rabs_R1 in *. lra. }
  assert (Rabs (t10 T) <= eta + kh).
  { replace (t10 T) with ((t10 T - c') + c') by ring. pose proof (Rabs_triang (t10 T - c') c'). lra. }
  assert (Rabs (t01 T) <= eta + kh).
  { replace (t01 T) with ((t01 T - d) + d) by ring. pose proof (Rabs_triang (t01 T - d) d). lra. }
  eapply Rle_trans; [apply N1_triang|]. apply Rplus_le_compat.
  - eapply Rle_trans; [apply (mat_bound _ _ _ _ _ _ (1 + 2 * kh + 2 * eta)); rewrite Rabs_Ropp; lra|].
    apply Rmult_le_compat_l; [pose proof (Rabs_pos (t10 T)); pose proof (Rabs_pos (t00 T)); lra|].
    eapply Rle_trans; [apply N1_triang|]. lra.
  - eapply Rle_trans; [apply (mat_bound _ _ _ _ _ _ (2 * eta)); rewrite Rabs_Ropp; lra|].
    apply Rmult_le_compat_l; [lra|]. unfold fa, fb. apply mat_bound.
    + replace c with ((c - 1) + 1) at 1 by ring. pose proof (Rabs_triang (c - 1) 1). rewrite Rabs_R1 in *. lra.
    + replace d' with ((d' - 1) + 1) at 1 by ring. pose proof (Rabs_triang (d' - 1) 1). rewrite Rabs_R1 in *. lra.
Qed.

(** ---- shape of a sector step *)
Definition cl (s : sec) (x : R) : R := Rmax (smin s) (Rmin x (smax s)).
Definition dl (s : sec) (x : R) : R := match sdir s with Dfwd => cl s x - smin s | _ => smax s - cl s x end.
Definition rv (s : sec) (y : Y) : Y := match sdir s with Dfwd => y | _ => reverse y end.
Lemma cl_range : forall s x, smin s <= smax s -> smin s <= cl s x <= smax s.
Proof. intros. unfold cl. unfold Rmax, Rmin. repeat destruct (Rle_dec _ _); lra. Qed.
Lemma dl_range : forall s x, smin s <= smax s -> 0 <= dl s x <= sh s.
Proof. intros s x H. pose proof (cl_range s x H). unfold dl, sh. destruct (sdir s); lra. Qed.
Lemma cl_low : forall s x, smin s <= smax s -> x <= smin s -> cl s x = smin s.
Proof. intros. unfold cl, Rmax, Rmin. repeat destruct (Rle_dec _ _); lra. Qed.
Lemma cl_high : forall s x, smin s <= smax s -> smax s <= x -> cl s x = smax s.
Proof. intros. unfold cl, Rmax, Rmin. repeat destruct (Rle_dec _ _); lra. Qed.
Lemma cl_in : forall s x, smin s <= x <= smax s -> cl s x = x.
Proof. intros. unfold cl, Rmax, Rmin. repeat destruct (Rle_dec _ _); lra. Qed.

Lemma tmul_id : forall y, tmul Tid y = y. Proof. intro. apply Y_eq; unfold tmul, Tid; cbn; ring. Qed.
Lemma tdiv_id : forall y, tdiv Tid y = y. Proof. intro. apply Y_eq; unfold tdiv, tmul, Tid; cbn; ring. Qed.

Lemma clip_low : forall s d, 0 <= d -> (if Rltb (sh s) d then sh s else d) = Rmin d (sh s).
Proof. intros. unfold Rmin. destruct (Rltb (sh s) d) eqn:E; [apply Rltb_true in E|apply Rltb_false in E]; destruct (Rle_dec d (sh s)); lra. Qed.

Lemma calculateT_at_zero : forall s E u, calculateT eta_code s E 0 u = Tid.
Proof.
  intros. unfold calculateT. rewrite Rabs_R0. assert (Rleb 0 EPS12 = true) as ->; [|reflexivity]. apply Rleb_true. unfold EPS12. left. apply Rinv_0_lt_compat, pow_lt. lra.
Qed.

Section Shape.
Variable calcT : sec -> R -> R -> bool -> Tm.
Variable vm : R.
Hypothesis T0 : forall s E u, calcT s E 0 u = Tid.

Lemma ydelta_fwd : forall s E u y x, sdir s = Dfwd -> smin s < smax s -> smin s < x ->
  ydelta calcT vm s E u (x - smin s) y = tmul (calcT s E (dl s x) u) y.
Proof.
  intros s E u y x Hd Ho Hx. unfold ydelta, propagateDelta. rewrite Hd. cbn [dir_eqb fst].
  assert (Rleb 0 (x - smin s) = true) as -> by (apply Rleb_true; lra). rewrite clip_low by lra.
  do 2 f_equal. unfold dl, cl, sh. rewrite Hd. unfold Rmax, Rmin. repeat destruct (Rle_dec _ _); lra.
Qed.
Lemma ydelta_fwd_back : forall s E u y x, sdir s = Dfwd -> smin s < smax s -> smin s < x ->
  ydelta calcT vm s E u (smin s - x) y = tdiv (calcT s E (dl s x) u) y.
Proof.
  intros s E u y x Hd Ho Hx. unfold ydelta, propagateDelta. rewrite Hd. cbn [dir_eqb fst].
  assert (Rleb 0 (smin s - x) = false) as -> by (apply Rleb_false; lra). rewrite clip_low by lra.
  do 2 f_equal. unfold dl, cl, sh. rewrite Hd. unfold Rmax, Rmin. repeat destruct (Rle_dec _ _); lra.
Qed.
Lemma ydelta_bwd : forall s E u y x, sdir s = Dbwd -> smin s < smax s -> x < smax s ->
  ydelta calcT vm s E u (x - smax s) y = reverse (tmul (calcT s E (dl s x) u) (reverse y)).
Proof.
  intros s E u y x Hd Ho Hx. unfold ydelta, propagateDelta. rewrite Hd. cbn [dir_eqb fst].
  replace ((x - smax s) * -1) with (smax s - x) by ring.
  assert (Rleb 0 (smax s - x) = true) as -> by (apply Rleb_true; lra). rewrite clip_low by lra.
  do 3 f_equal. unfold dl, cl, sh. rewrite Hd. unfold Rmax, Rmin. repeat destruct (Rle_dec _ _); lra.
Qed.
Lemma ydelta_bwd_back : forall s E u y x, sdir s = Dbwd -> smin s < smax s -> x < smax s ->
  ydelta calcT vm s E u (smax s - x) y = reverse (tdiv (calcT s E (dl s x) u) (reverse y)).
Proof.
  intros s E u y x Hd Ho Hx. unfold ydelta, propagateDelta. rewrite Hd. cbn [dir_eqb fst].
  replace ((smax s - x) * -1) with (x - smax s) by ring.
  assert (Rleb 0 (x - smax s) = false) as -> by (apply Rleb_false; lra). rewrite clip_low by lra.
  do 3 f_equal. unfold dl, cl, sh. rewrite Hd. unfold Rmax, Rmin. repeat destruct (Rle_dec _ _); lra.
Qed.

Lemma yprop_shape : forall s E a b u y, directed s -> smin s < smax s ->
  ~ ((smax s <= a /\ smax s <= b) \/ (a <= smin s /\ b <= smin s)) ->
  yprop calcT vm s E a b u y = rv s (tmul (calcT s E (dl s b) u) (tdiv (calcT s E (dl s a) u) (rv s y))).
Proof.
  intros s E a b u y Dd Ho Hn. unfold yprop, sprop. cbv zeta.
  assert ((Rleb (smax s) a && Rleb (smax s) b) || (Rleb a (smin s) && Rleb b (smin s)) = false) as ->.
  { apply not_true_is_false. rewrite orb_true_iff, !andb_true_iff, !Rleb_true. exact Hn. }
  cbn [negb].
  destruct Dd as [Hd|Hd]; unfold rv; rewrite Hd; cbn [dir_eqb].
  - assert (forall x, x <= smin s -> dl s x = 0) as D0 by (intros x Hx; unfold dl; rewrite Hd, cl_low by lra; ring).
    destruct (Rltb (smin s) a) eqn:La; [apply Rltb_true in La|apply Rltb_false in La];
      (destruct (Rltb (smin s) b) eqn:Lb; [apply Rltb_true in Lb|apply Rltb_false in Lb]); rewrite ?pdelta_split; cbn [fst];
      rewrite ?ydelta_fwd, ?ydelta_fwd_back by assumption; rewrite ?(D0 a), ?(D0 b), ?T0, ?tmul_id, ?tdiv_id by lra; reflexivity.
  - assert (forall x, smax s <= x -> dl s x = 0) as D0 by (intros x Hx; unfold dl; rewrite Hd, cl_high by lra; ring).
    destruct (Rltb a (smax s)) eqn:La; [apply Rltb_true in La|apply Rltb_false in La];
      (destruct (Rltb b (smax s)) eqn:Lb; [apply Rltb_true in Lb|apply Rltb_false in Lb]); rewrite ?pdelta_split; cbn [fst];
      rewrite ?ydelta_bwd, ?ydelta_bwd_back by assumption; rewrite ?(D0 a), ?(D0 b), ?T0, ?tmul_id, ?tdiv_id, ?reverse_reverse by lra; reflexivity.
Qed.
End Shape.

(** ---- global and local coordinates *)
Definition sol_on (V : R -> R) (E p q : R) (y y' : R -> R) : Prop :=
  (forall x, p <= x <= q -> continuous y x /\ continuous y' x) /\
  (forall x, p < x < q -> is_derive y x (y' x) /\ is_derive y' x ((V x - E) * y x)).
Lemma sol_on_sub : forall V E p q y y' a b, sol_on V E p q y y' -> p <= a -> b <= q -> sol_on V E a b y y'.
Proof. intros V E p q y y' a b [H1 H2] Ha Hb. split; intros x Hx; [apply H1|apply H2]; lra. Qed.
Lemma shift_local : forall V E p q y y', sol_on V E p q y y' -> local_solution (fun t => V (p + t)) E (q - p) (fun t => y (p + t)) (fun t => y' (p + t)).
Proof.
  intros V E p q y y' [H1 H2]. split; intros x Hx.
  - destruct (H1 (p + x) ltac:(lra)) as [A1 A2].
    assert (continuous (fun t => p + t) x) by (apply (ex_derive_continuous (fun t => p + t)); auto_derive; exact I).
    split; [apply (continuous_comp (fun t => p + t) y)|apply (continuous_comp (fun t => p + t) y')]; assumption.
  - destruct (H2 (p + x) ltac:(lra)) as [A1 A2]. assert (is_derive (fun t => p + t) x 1) by (auto_derive; [exact I|ring]).
    split; (evar_last; [apply (is_derive_comp _ (fun t => p + t)); [eassumption|eassumption]|]); unfold scal; simpl; unfold mult; simpl; ring.
Qed.
Lemma mirror_local : forall V E p q y y', sol_on V E p q y y' -> local_solution (fun t => V (q - t)) E (q - p) (fun t => y (q - t)) (fun t => - y' (q - t)).
Proof.
  intros V E p q y y' [H1 H2]. split; intros x Hx.
  - destruct (H1 (q - x) ltac:(lra)) as [A1 A2].
    assert (continuous (fun t => q - t) x) by (apply (ex_derive_continuous (fun t => q - t)); auto_derive; exact I).
    split; [apply (continuous_comp (fun t => q - t) y); assumption|].
    apply (continuous_opp (fun t => y' (q - t))). apply (continuous_comp (fun t => q - t) y'); assumption.
  - destruct (H2 (q - x) ltac:(lra)) as [A1 A2]. assert (is_derive (fun t => q - t) x (-1)) by (auto_derive; [exact I|ring]).
    split.
    + evar_last; [apply (is_derive_comp y (fun t => q - t)); [eassumption|eassumption]|]. unfold scal; simpl; unfold mult; simpl; ring.
    + evar_last; [apply (is_derive_opp (fun t => y' (q - t))); apply (is_derive_comp y' (fun t => q - t)); [eassumption|eassumption]|].
      unfold opp, scal; simpl; unfold mult; simpl; ring.
Qed.

Lemma growth_any : forall M, 0 <= M -> exists K, 0 <= K /\ forall V E p q y y', q - p <= 1 ->
  (forall x, p < x < q -> Rabs (V x - E) <= M) -> sol_on V E p q y y' ->
  forall x1 x2, p <= x1 <= q -> p <= x2 <= q -> N1 (y x2) (y' x2) <= (1 + 2 * K * (q - p)) * N1 (y x1) (y' x1).
Proof.
  intros M HM. destruct (local_growth M HM) as (K & HK & H). exists K. split; [exact HK|].
  intros V E p q y y' Hpq HV Hs x1 x2 H1 H2.
  assert (forall a b a' b' h, 0 <= h <= q - p -> Rabs (a' - a) <= K * h * N1 a b -> Rabs (b' - b) <= K * h * N1 a b -> N1 a' b' <= (1 + 2 * K * (q - p)) * N1 a b) as Fin.
  { intros a b a' b' h Hh A1 A2. replace a' with (a + (a' - a)) by ring. replace b' with (b + (b' - b)) by ring.
    eapply Rle_trans; [apply N1_triang|]. pose proof (N1_nonneg a b).
    assert (K * h * N1 a b <= K * (q - p) * N1 a b) by (apply Rmult_le_compat_r; [assumption|]; apply Rmult_le_compat_l; lra).
    unfold N1 at 2. lra. }
  destruct (Rtotal_order x1 x2) as [Hlt|[->|Hlt]].
  - pose proof (shift_local V E x1 x2 y y' (sol_on_sub V E p q y y' x1 x2 Hs (proj1 H1) (proj2 H2))) as HL.
    destruct (H _ E (x2 - x1) _ _ ltac:(lra) ltac:(intros t Ht; apply (HV (x1 + t)); lra) HL (x2 - x1) ltac:(lra)) as [A1 A2]. cbv beta in A1, A2.
    replace (x1 + (x2 - x1)) with x2 in A1, A2 by ring. rewrite Rplus_0_r in A1, A2. apply (Fin _ _ _ _ (x2 - x1)); [lra|exact A1|exact A2].
  - pose proof (N1_nonneg (y x2) (y' x2)). assert (0 <= 2 * K * (q - p)) by (apply Rmult_le_pos; lra).
    rewrite <- (Rmult_1_l (N1 (y x2) (y' x2))) at 1. apply Rmult_le_compat_r; lra.
  - pose proof (mirror_local V E x2 x1 y y' (sol_on_sub V E p q y y' x2 x1 Hs (proj1 H2) (proj2 H1))) as HL.
    destruct (H _ E (x1 - x2) _ _ ltac:(lra) ltac:(intros t Ht; apply (HV (x1 - t)); lra) HL (x1 - x2) ltac:(lra)) as [A1 A2]. cbv beta in A1, A2.
    replace (x1 - (x1 - x2)) with x2 in A1, A2 by ring. rewrite Rminus_0_r in A1, A2. rewrite Rabs_Ropp in A1, A2.
    apply (Fin _ _ _ _ (x1 - x2)); [lra|exact A1|]. replace (y' x2 - y' x1) with (- (- y' x2 - - y' x1)) by ring. rewrite Rabs_Ropp. exact A2.
Qed.

(** error of the step matrix used for the position x in sector s *)
Definition step_err (s : sec) (u : bool) (x : R) : R :=
  if Rlt_dec (smin s) x then if Rlt_dec x (smax s) then sh s ^ 15 + / 10 ^ 12 else sh s ^ (if u then 19 else 15) + / 10 ^ 20
  else sh s ^ (if u then 19 else 15) + / 10 ^ 20.

Lemma pow_small : forall h n, 0 < h <= 1 -> (1 <= n)%nat -> 0 < h ^ n <= h.
Proof.
  intros h n Hh Hn. split; [apply pow_lt; lra|]. destruct n as [|n]; [lia|]. cbn [pow].
  assert (h ^ n <= 1) by (rewrite <- (pow1 n); apply pow_incr; lra). assert (0 < h ^ n) by (apply pow_lt; lra). nra.
Qed.
Lemma step_err_small : forall s u x, / 10 ^ 12 < sh s <= 1 -> 0 <= step_err s u x <= 2 * sh s.
Proof.
  intros s u x Hh. assert (0 < / 10 ^ 12) by (apply Rinv_0_lt_compat, pow_lt; lra). assert (0 < / 10 ^ 20) by (apply Rinv_0_lt_compat, pow_lt; lra).
  assert (/ 10 ^ 20 <= / 10 ^ 12) by (apply Rinv_le_contravar; [apply pow_lt; lra|apply Rle_pow; [lra|lia]]).
  pose proof (pow_small (sh s) 15 ltac:(lra) ltac:(lia)). pose proof (pow_small (sh s) 19 ltac:(lra) ltac:(lia)).
  unfold step_err. destruct (Rlt_dec (smin s) x); [destruct (Rlt_dec x (smax s))|]; destruct u; lra.
Qed.

(** local coordinates of a sector *)
Definition loc (s : sec) (y : R -> R) (t : R) : R := match sdir s with Dfwd => y (smin s + t) | _ => y (smax s - t) end.
Definition loc' (s : sec) (y' : R -> R) (t : R) : R := match sdir s with Dfwd => y' (smin s + t) | _ => - y' (smax s - t) end.
Lemma loc_solution : forall s V E y y', directed s -> sol_on V E (smin s) (smax s) y y' -> local_solution (loc s V) E (sh s) (loc s y) (loc' s y').
Proof.
  intros s V E y y' [Hd|Hd] H; unfold loc, loc', sh; rewrite Hd; [apply shift_local, H|apply mirror_local, H].
Qed.
Lemma loc_dl : forall s y x, directed s -> loc s y (dl s x) = y (cl s x).
Proof. intros s y x [Hd|Hd]; unfold loc, dl; rewrite Hd; f_equal; ring. Qed.
Lemma N1_loc : forall s y y' x, directed s -> N1 (loc s y (dl s x)) (loc' s y' (dl s x)) = N1 (y (cl s x)) (y' (cl s x)).
Proof.
  intros s y y' x Dd. rewrite loc_dl by exact Dd. destruct Dd as [Hd|Hd]; unfold loc', dl; rewrite Hd; unfold N1; rewrite ?Rabs_Ropp.
  - replace (smin s + (cl s x - smin s)) with (cl s x) by ring. reflexivity.
  - replace (smax s - (smax s - cl s x)) with (cl s x) by ring. reflexivity.
Qed.
Lemma dist_rv : forall s Z y y' x, directed s -> dist (rv s Z) (loc s y (dl s x)) (loc' s y' (dl s x)) = dist Z (y (cl s x)) (y' (cl s x)).
Proof.
  intros s Z y y' x Dd. rewrite loc_dl by exact Dd. destruct Dd as [Hd|Hd]; unfold rv, loc', dl; rewrite Hd; unfold dist, N1.
  - replace (smin s + (cl s x - smin s)) with (cl s x) by ring. reflexivity.
  - replace (smax s - (smax s - cl s x)) with (cl s x) by ring. cbn [reverse y0 y1].
    replace (y1 Z * -1 - - y' (cl s x)) with (- (y1 Z - y' (cl s x))) by ring. rewrite Rabs_Ropp. reflexivity.
Qed.
Lemma dist_rv' : forall s Z y y' x, directed s -> dist (rv s Z) (y (cl s x)) (y' (cl s x)) = dist Z (loc s y (dl s x)) (loc' s y' (dl s x)).
Proof.
  intros s Z y y' x Dd. rewrite <- dist_rv by exact Dd. f_equal. destruct Dd as [Hd|Hd]; unfold rv; rewrite Hd; [reflexivity|apply reverse_reverse].
Qed.

Lemma three_terms : forall z1 z2 z3 ea eb t, 0 <= z1 -> 0 <= z2 -> 0 <= z3 -> 0 <= ea -> 0 <= eb -> 0 <= t ->
  z1 * t + z2 * ea + z3 * eb <= (z1 + z2 + z3) * (ea + eb + t).
Proof.
  intros. assert (0 <= z1 * (ea + eb)) by (apply Rmult_le_pos; lra). assert (0 <= z2 * (eb + t)) by (apply Rmult_le_pos; lra).
  assert (0 <= z3 * (ea + t)) by (apply Rmult_le_pos; lra). lra.
Qed.
Lemma sector_accuracy : forall B W D, 0 <= B -> 0 <= W -> 0 <= D -> exists A, 0 <= A /\
  forall vm s E V H tau y y', sector_ok V E B W H tau s -> H <= 1 -> 0 <= tau <= D -> sol_on V E (smin s) (smax s) y y' ->
  (forall x1 x2, smin s <= x1 <= smax s -> smin s <= x2 <= smax s -> N1 (y x2) (y' x2) <= (1 + A * sh s) * N1 (y x1) (y' x1)) /\
  (forall a b u Z, ~ ((smax s <= a /\ smax s <= b) \/ (a <= smin s /\ b <= smin s)) ->
     dist (yprop (calculateT eta_code) vm s E a b u Z) (y (cl s b)) (y' (cl s b))
     <= (1 + A * sh s) * dist Z (y (cl s a)) (y' (cl s a))
        + A * (step_err s u a + step_err s u b + sh s * tau) * N1 (y (cl s a)) (y' (cl s a))).
Proof.
  intros B W D HB HW HD.
  destruct (sector_matrix B W HB HW) as (K & HK & HT). destruct (perturbed B W D HB HW HD) as (Kp & HKp & HP).
  destruct (potential_bound B W HB HW) as (M & HM & HPot). destruct (growth_any (M + D) ltac:(lra)) as (Kl & HKl & HG).
  set (a1 := 6 * K). set (c1 := 1 + a1). assert (0 <= a1) as Ha1 by (unfold a1; lra). assert (1 <= c1) as Hc1 by (unfold c1; lra).
  set (X := (c1 * c1 + 1) * (2 * Kp) + c1 * (2 * K * (1 + 2 * K)) + 2 * K).
  assert (0 <= X) as HX.
  { unfold X. assert (0 <= c1 * c1) by nra. assert (0 <= (c1 * c1 + 1) * (2 * Kp)) by (apply Rmult_le_pos; lra).
    assert (0 <= c1 * (2 * K * (1 + 2 * K))) by (apply Rmult_le_pos; [lra|apply Rmult_le_pos; lra]). lra. }
  exists (2 * a1 + a1 * a1 + 2 * Kl + (1 + 2 * Kl) * X).
  assert (0 <= a1 * a1) as Haa by nra. assert (0 <= (1 + 2 * Kl) * X) as HlX by (apply Rmult_le_pos; lra). split; [lra|].
  set (A := 2 * a1 + a1 * a1 + 2 * Kl + (1 + 2 * Kl) * X).
  intros vm s E V H tau y y' (Hdir & Hh & Hv & Hw & HV) HH Htau Hs.
  assert (0 < / 10 ^ 12) as He12 by (apply Rinv_0_lt_compat, pow_lt; lra).
  set (h := sh s) in *. set (v := fun k => nth k (spay s) 0).
  assert (0 < h <= 1) as Hh1 by lra. assert (smin s < smax s) as Ho by (unfold h, sh in Hh; lra).
  assert (forall x, 0 < x < h -> Rabs (loc s V x - sector_potential 15 v h x) <= tau) as HVl.
  { intros x Hx. unfold h, sh in Hx. destruct Hdir as [Hd|Hd]; unfold loc; rewrite Hd.
    - specialize (HV (smin s + x) ltac:(lra)). unfold sector_pot in HV. rewrite Hd in HV. replace (smin s + x - smin s) with x in HV by ring. exact HV.
    - specialize (HV (smax s - x) ltac:(lra)). unfold sector_pot in HV. rewrite Hd in HV. replace (smax s - (smax s - x)) with x in HV by ring. exact HV. }
  assert (forall x, smin s < x < smax s -> Rabs (V x - E) <= M + D) as HVE.
  { intros x Hx. specialize (HV x Hx). replace (V x - E) with ((V x - sector_pot s x) + (sector_pot s x - E)) by ring.
    eapply Rle_trans; [apply Rabs_triang|]. assert (Rabs (sector_pot s x - E) <= M); [|lra].
    apply (HPot v h E Hv Hw Hh1). unfold h, sh. destruct (sdir s); lra. }
  assert (smax s - smin s = h) as Ehs by reflexivity.
  pose proof (HG V E (smin s) (smax s) y y' ltac:(lra) HVE Hs) as HGs. rewrite Ehs in HGs.
  split.
  { intros x1 x2 H1 H2. eapply Rle_trans; [apply (HGs x1 x2 H1 H2)|]. apply Rmult_le_compat_r; [apply N1_nonneg|].
    assert (2 * Kl * h <= A * h) by (apply Rmult_le_compat_r; unfold A; lra). lra. }
  intros a b u Z Hn.
  destruct (fundamental_exists 15 v h E) as (c & c' & d & d' & HF).
  destruct (HT s E Hv Hw Hh1 c c' d d' HF) as (Hid & Hpart & Hfull & Hzero).
  pose proof (loc_solution s V E y y' Hdir Hs) as Hl. fold h in Hl.
  pose proof (HP v h E Hv Hw Hh1 (loc s V) tau _ _ Htau HVl Hl c c' d d' HF) as Hper.
  set (N0 := N1 (loc s y 0) (loc' s y' 0)) in *.
  assert (forall x, nearT (calculateT eta_code s E (dl s x) u) (c (dl s x)) (d (dl s x)) (c' (dl s x)) (d' (dl s x)) (K * step_err s u x)) as Hnear.
  { intro x. unfold step_err. fold h.
    assert (dl s x = 0 \/ dl s x = h -> nearT (calculateT eta_code s E (dl s x) u) (c (dl s x)) (d (dl s x)) (c' (dl s x)) (d' (dl s x)) (K * (h ^ (if u then 19 else 15) + / 10 ^ 20))) as Hend.
    { intros [->| ->]; [|exact (Hfull (proj1 Hh) u)]. rewrite Hzero. destruct HF as (_ & _ & F3 & F4 & F5 & F6). unfold nearT, Tid; cbn [t00 t01 t10 t11].
      rewrite F3, F4, F5, F6, !Rminus_eq_0, Rabs_R0. assert (0 < h ^ (if u then 19 else 15)) by (apply pow_lt; lra).
      assert (0 < / 10 ^ 20) by (apply Rinv_0_lt_compat, pow_lt; lra). assert (0 <= K * (h ^ (if u then 19 else 15) + / 10 ^ 20)) by (apply Rmult_le_pos; lra). auto. }
    destruct (Rlt_dec (smin s) x); [destruct (Rlt_dec x (smax s))|].
    - apply Hpart. apply dl_range. lra.
    - apply Hend. unfold dl. rewrite cl_high by lra. unfold h, sh. destruct (sdir s); lra.
    - apply Hend. unfold dl. rewrite cl_low by lra. unfold h, sh. destruct (sdir s); lra. }
  assert (forall x, N1 (loc s y (dl s x) - (c (dl s x) * loc s y 0 + d (dl s x) * loc' s y' 0)) (loc' s y' (dl s x) - (c' (dl s x) * loc s y 0 + d' (dl s x) * loc' s y' 0)) <= 2 * Kp * (h * tau) * N0) as Hw0.
  { intro x. destruct (Hper (dl s x) (dl_range s x ltac:(lra))) as [P1 P2]. change (Rabs (loc s y 0) + Rabs (loc' s y' 0)) with N0 in P1, P2. unfold N1. lra. }
  pose proof (step_err_small s u a ltac:(fold h; lra)) as Ea. pose proof (step_err_small s u b ltac:(fold h; lra)) as Eb. fold h in Ea, Eb.
  set (ea := step_err s u a) in *. set (eb := step_err s u b) in *.
  assert (0 <= K * ea) as Kea by (apply Rmult_le_pos; lra). assert (0 <= K * eb) as Keb by (apply Rmult_le_pos; lra).
  destruct (Hid (dl s a) (dl_range s a ltac:(lra))) as (Wa & A1 & A2 & A3 & A4). destruct (Hid (dl s b) (dl_range s b ltac:(lra))) as (Wb & B1 & B2 & B3 & B4).
  rewrite yprop_shape; [|intros; apply calculateT_at_zero|exact Hdir|exact Ho|exact Hn].
  rewrite dist_rv' by exact Hdir.
  pose proof (backward_step _ _ _ _ _ _ (K * h) (rv s Z) _ _ _ _ _ (Hnear a) Wa A1 A2 A3 A4 Kea (Hw0 a)) as S1.
  pose proof (forward_step _ _ _ _ _ _ (K * h) (tdiv (calculateT eta_code s E (dl s a) u) (rv s Z)) _ _ _ _ _ (Hnear b) B1 B2 B3 B4 Keb (Hw0 b)) as S2.
  rewrite dist_rv in S1 by exact Hdir. fold N0 in S1, S2. fold ea in S1. fold eb in S2.
  set (D0 := dist Z (y (cl s a)) (y' (cl s a))) in *. set (Dm := dist (tdiv _ _) _ _) in *.
  assert (0 <= D0) as HD0 by apply N1_nonneg. assert (0 <= N0) as HN0 by apply N1_nonneg.
  set (Na := N1 (y (cl s a)) (y' (cl s a))).
  assert (N0 <= (1 + 2 * Kl) * Na) as HNa.
  { assert (exists x0, smin s <= x0 <= smax s /\ N0 = N1 (y x0) (y' x0)) as (x0 & Hx0 & ->).
    { unfold N0, loc, loc'. destruct Hdir as [Hd|Hd]; rewrite Hd.
      - exists (smin s). rewrite Rplus_0_r. split; [lra|reflexivity].
      - exists (smax s). rewrite Rminus_0_r. split; [lra|]. unfold N1. rewrite Rabs_Ropp. reflexivity. }
    eapply Rle_trans; [apply (HGs (cl s a) x0 (cl_range s a ltac:(lra)) Hx0)|]. fold Na. apply Rmult_le_compat_r; [apply N1_nonneg|].
    assert (2 * Kl * h <= 2 * Kl * 1) by (apply Rmult_le_compat_l; lra). lra. }
  assert (0 <= Na) as HNa0 by apply N1_nonneg.
  assert (0 <= h * tau) as Hht by (apply Rmult_le_pos; lra).
  assert (1 + 2 * (K * h) + 2 * (K * ea) <= 1 + a1 * h) as Qa.
  { assert (K * ea <= K * (2 * h)) by (apply Rmult_le_compat_l; lra). unfold a1. lra. }
  assert (1 + 2 * (K * h) + 2 * (K * eb) <= 1 + a1 * h) as Qb.
  { assert (K * eb <= K * (2 * h)) by (apply Rmult_le_compat_l; lra). unfold a1. lra. }
  assert (0 <= a1 * h <= a1) as Hah by (split; [apply Rmult_le_pos; lra|rewrite <- (Rmult_1_r a1) at 2; apply Rmult_le_compat_l; lra]).
  assert (0 <= K * h <= K) as HKh by (split; [apply Rmult_le_pos; lra|rewrite <- (Rmult_1_r K) at 2; apply Rmult_le_compat_l; lra]).
  assert (0 <= 2 * Kp * (h * tau) * N0) as Hw0' by (apply Rmult_le_pos; [apply Rmult_le_pos; lra|lra]).
  assert (Dm <= (1 + a1 * h) * (D0 + 2 * Kp * (h * tau) * N0) + 2 * (K * ea) * ((1 + 2 * K) * N0)) as S1'.
  { eapply Rle_trans; [exact S1|]. apply Rplus_le_compat.
    - apply Rmult_le_compat_r; lra.
    - apply Rmult_le_compat_l; [lra|]. apply Rmult_le_compat_r; lra. }
  assert (0 <= Dm) as HDm by apply N1_nonneg.
  eapply Rle_trans; [exact S2|].
  assert ((1 + 2 * (K * h) + 2 * (K * eb)) * Dm <= (1 + a1 * h) * ((1 + a1 * h) * (D0 + 2 * Kp * (h * tau) * N0) + 2 * (K * ea) * ((1 + 2 * K) * N0))) as S3.
  { apply Rmult_le_compat; lra. }
  assert ((1 + a1 * h) * (1 + a1 * h) <= 1 + (2 * a1 + a1 * a1) * h) as Sq.
  { assert (a1 * h * (a1 * h) <= a1 * h * a1) by (apply Rmult_le_compat_l; lra). lra. }
  assert ((1 + a1 * h) * (1 + a1 * h) <= c1 * c1) as Sq2 by (apply Rmult_le_compat; unfold c1; lra).
  assert ((1 + a1 * h) * ((1 + a1 * h) * D0) <= (1 + A * h) * D0) as R1.
  { rewrite <- Rmult_assoc. apply Rmult_le_compat_r; [exact HD0|]. assert ((2 * a1 + a1 * a1) * h <= A * h) by (apply Rmult_le_compat_r; unfold A; lra). lra. }
  assert ((1 + a1 * h) * ((1 + a1 * h) * (2 * Kp * (h * tau) * N0)) <= c1 * c1 * (2 * Kp * (h * tau) * N0)) as R2.
  { rewrite <- Rmult_assoc. apply Rmult_le_compat_r; assumption. }
  assert (0 <= 2 * (K * ea) * ((1 + 2 * K) * N0)) as Hnn by (apply Rmult_le_pos; [lra|apply Rmult_le_pos; lra]).
  assert ((1 + a1 * h) * (2 * (K * ea) * ((1 + 2 * K) * N0)) <= c1 * (2 * (K * ea) * ((1 + 2 * K) * N0))) as R3 by (apply Rmult_le_compat_r; unfold c1; lra).
  assert (c1 * c1 * (2 * Kp * (h * tau) * N0) + c1 * (2 * (K * ea) * ((1 + 2 * K) * N0)) + 2 * (K * eb) * N0 + 2 * Kp * (h * tau) * N0 <= X * (ea + eb + h * tau) * N0) as R4.
  { unfold X.
    replace (c1 * c1 * (2 * Kp * (h * tau) * N0) + c1 * (2 * (K * ea) * ((1 + 2 * K) * N0)) + 2 * (K * eb) * N0 + 2 * Kp * (h * tau) * N0)
      with (((c1 * c1 + 1) * (2 * Kp) * (h * tau) + c1 * (2 * K * (1 + 2 * K)) * ea + 2 * K * eb) * N0) by ring.
    apply Rmult_le_compat_r; [exact HN0|].
    assert (0 <= (c1 * c1 + 1) * (2 * Kp)) as Z1 by (apply Rmult_le_pos; [nra|lra]).
    assert (0 <= c1 * (2 * K * (1 + 2 * K))) as Z2 by (apply Rmult_le_pos; [lra|apply Rmult_le_pos; lra]).
    apply three_terms; lra. }
  assert (X * (ea + eb + h * tau) * N0 <= A * (ea + eb + h * tau) * Na) as R5.
  { apply Rle_trans with (X * (ea + eb + h * tau) * ((1 + 2 * Kl) * Na)).
    - apply Rmult_le_compat_l; [apply Rmult_le_pos; lra|exact HNa].
    - replace (X * (ea + eb + h * tau) * ((1 + 2 * Kl) * Na)) with ((1 + 2 * Kl) * X * (ea + eb + h * tau) * Na) by ring.
      apply Rmult_le_compat_r; [exact HNa0|]. apply Rmult_le_compat_r; [lra|unfold A; lra]. }
  rewrite Rmult_plus_distr_l in S3. rewrite (Rmult_plus_distr_l (1 + a1 * h) D0) in S3. rewrite (Rmult_plus_distr_l (1 + a1 * h) ((1 + a1 * h) * D0)) in S3. lra.
Qed.
