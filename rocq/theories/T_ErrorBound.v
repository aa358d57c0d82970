(** C84: eigenvalueError is documented as an upper bound of the true error ("The true error on the given eigenvalue will be less than the
    value returned by this method", pyslise.cpp).  It is not. *)
From Coq Require Import String ZArith Reals Lra Lia Bool.
From Coquelicot Require Import Coquelicot.
From Coq Require Import List.
From Verif Require Import Base M_Search S_Search M_Sectors S_Sectors M_Core S_Core S_Accuracy S_Zeros S_Formulas M_Formulas P_SearchR P_Prufer P_Sturm2 P_Sturm3 T_Zeros T_Sturm T_Search P_Newton P_Newton2 P_Newton3 T_Newton.
Import ListNotations.
Open Scope R_scope.

Lemma mvt : forall (f f' : R -> R) a b, a < b -> (forall x, a <= x <= b -> is_derive f x (f' x)) -> exists x, a < x < b /\ f b - f a = f' x * (b - a).
Proof.
  intros f f' a b H D. destruct (MVT_cor2 f f' a b H) as (x & E & Hx); [intros x Hx; apply is_derive_Reals, D, Hx|]. exists x. split; assumption.
Qed.
(** sin s - s cos s > 0 and 3 sin s - 3 s cos s - s^2 sin s > 0 on (0, pi) *)
Lemma p_pos : forall s, 0 < s < PI -> 0 < sin s - s * cos s.
Proof.
  intros s Hs. destruct (mvt (fun s => sin s - s * cos s) (fun s => s * sin s) 0 s ltac:(lra)) as (x & Hx & E); [intros x _; auto_derive; [exact I|ring]|].
  rewrite sin_0, Rmult_0_l, !Rminus_0_r in E. rewrite E. apply Rmult_lt_0_compat; [|lra]. apply Rmult_lt_0_compat; [lra|]. apply sin_gt_0; lra.
Qed.
Lemma r_pos : forall s, 0 < s < PI -> 0 < 3 * sin s - 3 * s * cos s - s * s * sin s.
Proof.
  intros s Hs. destruct (mvt (fun s => 3 * sin s - 3 * s * cos s - s * s * sin s) (fun s => s * (sin s - s * cos s)) 0 s ltac:(lra)) as (x & Hx & E); [intros x _; auto_derive; [exact I|ring]|].
  replace (3 * sin 0 - 3 * 0 * cos 0 - 0 * 0 * sin 0) with 0 in E by (rewrite sin_0; ring). rewrite Rminus_0_r in E. rewrite E. rewrite Rminus_0_r. apply Rmult_lt_0_compat; [|lra].
  apply Rmult_lt_0_compat; [lra|]. apply p_pos. lra.
Qed.
(** the derivative of sin (sqrt E) / sqrt E, as a function of s = sqrt E; it increases *)
Definition q (s : R) : R := (s * cos s - sin s) / (2 * (s * s * s)).
Lemma q_incr : forall s t, 0 < s -> s < t -> t < PI -> q s < q t.
Proof.
  intros s t Hs Hst Ht. destruct (mvt q (fun s => (3 * sin s - 3 * s * cos s - s * s * sin s) / (2 * (s * s * s * s))) s t Hst) as (x & Hx & E).
  { intros x Hx. unfold q. auto_derive; [|field; lra]. repeat apply Rmult_integral_contrapositive_currified; lra. }
  assert (0 < (3 * sin x - 3 * x * cos x - x * x * sin x) / (2 * (x * x * x * x))) as P.
  { apply Rdiv_lt_0_compat; [apply r_pos; lra|]. repeat apply Rmult_lt_0_compat; lra. }
  assert (0 < q t - q s) by (rewrite E; apply Rmult_lt_0_compat; lra). lra.
Qed.
Definition g (E : R) : R := sin (sqrt E) / sqrt E.
Lemma g_derive : forall E, 0 < E -> is_derive g E (q (sqrt E)).
Proof.
  intros E HE. pose proof (sqrt_lt_R0 E HE) as Hs. unfold g, q. auto_derive; [lra|]. field. lra.
Qed.
Lemma root_range : forall E, 0 < E < E1 -> 0 < sqrt E < PI.
Proof.
  intros E [H0 H1]. pose proof PIpos as HP. split; [apply sqrt_lt_R0, H0|]. rewrite <- (sqrt_square PI) by lra. apply sqrt_lt_1; unfold E1 in H1; try lra; nra.
Qed.
Lemma g_E1 : g E1 = 0.
Proof. unfold g, E1. replace (1 * PI * (1 * PI)) with (PI * PI) by ring. pose proof PIpos. rewrite sqrt_square by lra. rewrite sin_PI. unfold Rdiv. ring. Qed.
(** one step of Newton from the left of pi^2 stays on the left *)
Lemma step_left : forall E, 0 < E < E1 -> E < E - g E / q (sqrt E) < E1.
Proof.
  intros E HE. pose proof (root_range E HE) as Hs. pose proof PIpos as HP.
  assert (0 < g E) as G by (unfold g; apply Rdiv_lt_0_compat; [apply sin_gt_0; lra|lra]).
  assert (q (sqrt E) < 0) as Q. { unfold q. pose proof (p_pos _ Hs). apply Ropp_lt_cancel. rewrite Ropp_0. replace (- ((sqrt E * cos (sqrt E) - sin (sqrt E)) / (2 * (sqrt E * sqrt E * sqrt E)))) with ((sin (sqrt E) - sqrt E * cos (sqrt E)) / (2 * (sqrt E * sqrt E * sqrt E))) by (field; lra). apply Rdiv_lt_0_compat; [lra|]. repeat apply Rmult_lt_0_compat; lra. }
  assert (g E / q (sqrt E) < 0) as D. { apply Ropp_lt_cancel. rewrite Ropp_0. replace (- (g E / q (sqrt E))) with (g E / - q (sqrt E)) by (field; lra). apply Rdiv_lt_0_compat; lra. }
  split; [lra|].
  destruct (mvt g (fun x => q (sqrt x)) E E1 ltac:(lra)) as (x & Hx & M); [intros x Hx; apply g_derive; lra|]. rewrite g_E1 in M.
  assert (q (sqrt E) < q (sqrt x)) as I by (apply q_incr; [lra|apply sqrt_lt_1; lra|apply root_range; lra]).
  (* - g E = q(x) (E1 - E) > q(E) (E1 - E) *)
  assert (q (sqrt E) * (E1 - E) < - g E) as K. { replace (- g E) with (q (sqrt x) * (E1 - E)) by lra. apply Rmult_lt_compat_r; lra. }
  apply (Rmult_lt_reg_r (- q (sqrt E))); [lra|]. replace ((E - g E / q (sqrt E)) * - q (sqrt E)) with (- E * q (sqrt E) + g E) by (field; lra). lra.
Qed.
(** the matching error of the free particle on [0, 1] with Dirichlet conditions, and its derivative *)
Lemma free_solution : forall s a b, s <> 0 -> solution (fun _ => 0) (s * s) 0 1 two_sectors (fun x => a * sin (s * (x - b)) / s) (fun x => a * cos (s * (x - b))).
Proof.
  intros s a b Hs. set (z := fun x => a * sin (s * (x - b)) / s). set (z' := fun x => a * cos (s * (x - b))).
  assert (forall x, is_derive z x (z' x)) as D1 by (intro x; unfold z, z', Rminus; auto_derive; [exact I|field; exact Hs]).
  assert (forall x, is_derive z' x ((0 - s * s) * z x)) as D2 by (intro x; unfold z, z', Rminus; auto_derive; [exact I|field; exact Hs]).
  split; [intros x _; split; [apply (ex_derive_continuous z); eexists; apply D1|apply (ex_derive_continuous z'); eexists; apply D2]|intros i x _ _; split; [apply D1|apply D2]].
Qed.
Lemma free_error : forall u E, 0 < E -> err_of me0 u E = - g E /\ der_of me0 u E = - q (sqrt E).
Proof.
  assert (vget two_sectors 0 = Ret (mkSector 0 (1 / 2) Dfwd [0])) as Hm by reflexivity.
  assert (forall u E, 0 < E -> err_of me0 u E = - g E) as V.
  { intros u E HE. pose proof (sqrt_lt_R0 E HE) as Hs. pose proof (sqrt_sqrt E ltac:(lra)) as SS.
    assert (err_of me0 u E = err_of me0 true E) as ->.
    { destruct u; [reflexivity|]. apply (me_parts (fun _ => 0) 0 1 two_sectors 0 0 (mkSector 0 (1 / 2) Dfwd [0]) dirichlet dirichlet two_sectors_ok Hm nz_dirichlet nz_dirichlet E). }
    rewrite (err_val (calculateT eta_exact) 0 two_sectors 0 (mkSector 0 (1 / 2) Dfwd [0]) 0 1 dirichlet dirichlet true (proj1 two_sectors_ok) (constant_order _ _ _ _ two_sectors_ok) Hm E).
    pose proof (free_solution (sqrt E) 1 0 ltac:(lra)) as SL. pose proof (free_solution (sqrt E) 1 1 ltac:(lra)) as SR. rewrite SS in SL, SR.
    assert (forall E', Rabs (E' - E) < 1 -> exact_at (calculateT eta_exact) (fun _ => 0) 0 1 two_sectors (smax (mkSector 0 (1 / 2) Dfwd [0])) dirichlet dirichlet E') as X.
    { intros E' _. apply (constant_exact_at _ _ _ _ 0); [apply two_sectors_ok|exact Hm]. }
    assert (Rabs (E - E) < 1) as C by (rewrite Rminus_eq_0, Rabs_R0; lra).
    destruct (run_left (calculateT eta_exact) 0 two_sectors 0 (mkSector 0 (1 / 2) Dfwd [0]) 0 1 (fun _ => 0) dirichlet dirichlet (proj1 two_sectors_ok) Hm nz_dirichlet E 1 ltac:(lra) X E C _ _ SL) as [L0 L1].
    { unfold dirichlet. cbn [y0]. replace (sqrt E * (0 - 0)) with 0 by ring. rewrite sin_0. field. lra. } { unfold dirichlet. cbn [y1]. replace (sqrt E * (0 - 0)) with 0 by ring. rewrite cos_0. ring. }
    destruct (run_right (calculateT eta_exact) 0 two_sectors 0 (mkSector 0 (1 / 2) Dfwd [0]) 0 1 (fun _ => 0) dirichlet dirichlet (proj1 two_sectors_ok) Hm nz_dirichlet E 1 ltac:(lra) X E C _ _ SR) as [R0 R1].
    { unfold dirichlet. cbn [y0]. replace (sqrt E * (1 - 1)) with 0 by ring. rewrite sin_0. field. lra. } { unfold dirichlet. cbn [y1]. replace (sqrt E * (1 - 1)) with 0 by ring. rewrite cos_0. ring. }
    rewrite L0, L1, R0, R1. cbn [smax]. unfold g. replace (sqrt E * (1 / 2 - 0)) with (sqrt E / 2) by field. replace (sqrt E * (1 / 2 - 1)) with (- (sqrt E / 2)) by field.
    rewrite sin_neg, cos_neg. assert (sin (sqrt E) = 2 * sin (sqrt E / 2) * cos (sqrt E / 2)) as SD by (rewrite <- sin_2a; f_equal; field). rewrite SD. field. lra. }
  intros u E HE. split; [apply V, HE|].
  pose proof (constant_err_deriv (fun _ => 0) 0 1 two_sectors 0 0 (mkSector 0 (1 / 2) Dfwd [0]) dirichlet dirichlet two_sectors_ok Hm eq_refl eq_refl eq_refl eq_refl u E) as D.
  assert (is_derive (err_of me0 u) E (- q (sqrt E))) as D2.
  { apply (is_derive_ext_loc (fun E => - g E)); [|apply (is_derive_opp (V := R_NormedModule) g E (q (sqrt E))), g_derive, HE].
    exists (mkposreal E HE). intros y Hy. symmetry. apply V. apply Rabs_def2 in Hy. unfold minus, plus, opp in Hy. cbn in Hy. lra. }
  apply is_derive_unique in D. apply is_derive_unique in D2. rewrite D in D2. exact D2.
Qed.
Lemma loop_left : forall tol u n i E, (20 <= Z.of_nat n + i)%Z -> (0 < n)%nat -> 0 < E < E1 ->
  exists E' x evs, newton_loop me0 tol n i E u = Ret (E', snd (me0 x u), evs) /\ E < E' < E1 /\ 0 < x < E1.
Proof.
  intros tol u. induction n as [|n IH]; intros i E Hi Hn HE; [lia|]. cbn [newton_loop].
  destruct (free_error u E ltac:(lra)) as [A B]. unfold err_of, der_of in A, B. destruct (me0 E u) as [[err der] th] eqn:M. cbn [fst snd] in A, B. subst err der.
  assert (ssub E (sdiv (- g E) (- q (sqrt E))) = E - g E / q (sqrt E)) as EX.
  { change (E - (- g E) / (- q (sqrt E)) = E - g E / q (sqrt E)). pose proof (p_pos _ (root_range E HE)). pose proof (root_range E HE) as Hs.
    assert (q (sqrt E) <> 0). { unfold q. apply Rmult_integral_contrapositive_currified; [lra|]. apply Rinv_neq_0_compat. repeat apply Rmult_integral_contrapositive_currified; lra. }
    field. assumption. }
  rewrite EX. pose proof (step_left E HE) as SL.
  destruct ((i + 1 <? 20)%Z && slt tol (sabs (sdiv (- g E) (- q (sqrt E)))))%bool eqn:C.
  - apply andb_true_iff in C as [C _]. apply Z.ltb_lt in C.
    destruct (IH (i + 1)%Z (E - g E / q (sqrt E)) ltac:(lia) ltac:(lia) ltac:(lra)) as (E' & x & evs & L & H1 & H2). rewrite L. cbn [bind].
    exists E', x, (E :: evs). split; [reflexivity|]. split; [lra|exact H2].
  - exists (E - g E / q (sqrt E)), E, [E]. rewrite M. split; [reflexivity|]. split; [exact SL|exact HE].
Qed.
(** For -y'' = E y on [0, 1] with y(0) = y(1) = 0, every energy E0 between 0 and the first eigenvalue pi^2, and every tolerance, the number
    returned is smaller than the error of E0, in exact arithmetic. *)
Theorem C84_error_bound_refuted : eigen_index (fun _ => 0) 0 1 two_sectors dirichlet dirichlet 0 E1 /\
  forall tol E0, 0 < E0 < E1 -> exists e, eigenvalueError (me_of (calculateT eta_exact) 0 two_sectors 0 0 1 dirichlet dirichlet) tol E0 = Ret e /\ 0 < e < Rabs (E0 - E1).
Proof.
  split; [exact index_0|]. intros tol E0 HE. destruct (loop_left tol false 20 0 E0 ltac:(lia) ltac:(lia) HE) as (E' & x & evs & L & H1 & H2).
  destruct values_0 as (_ & W & _). specialize (W x ltac:(lra)).
  assert (snd (me0 x false) / PI = F0 x) as TH.
  { unfold angle_difference, M_Search.ang. rewrite (me_same (fun _ => 0) 0 1 two_sectors 0 0 (mkSector 0 (1 / 2) Dfwd [0]) dirichlet dirichlet two_sectors_ok eq_refl nz_dirichlet nz_dirichlet eq_refl eq_refl eq_refl eq_refl x). reflexivity. }
  assert (exists k, newton me0 tol E0 false = Ret (k, E')) as [k N].
  { unfold newton. rewrite L. cbn [bind]. change (sdiv (snd (me0 x false)) spi) with (snd (me0 x false) / PI). rewrite TH.
    assert (exists z, oint (iround (F0 x)) = Ret z) as [z ->]; [|cbn [bind]; eexists; reflexivity].
    change (iround (F0 x)) with (toint (Rround (F0 x))). unfold Rround. assert (Rleb 0 (F0 x) = false) as -> by (apply Rleb_false; lra).
    assert (Int_part (- F0 x + / 2) = 0 \/ Int_part (- F0 x + / 2) = 1)%Z as [-> | ->]; [|cbn; eexists; reflexivity|cbn; eexists; reflexivity].
    destruct (Rle_lt_dec (F0 x) (- / 2)); [right|left]; [apply (floor_unique _ 1)|apply (floor_unique _ 0)]; lra. }
  unfold eigenvalueError. rewrite N. cbn [bind snd]. exists (Rabs (E0 - E')). split; [reflexivity|]. rewrite (Rabs_left (E0 - E')), (Rabs_left (E0 - E1)) by lra. lra.
Qed.
Print Assumptions C84_error_bound_refuted.
