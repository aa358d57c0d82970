(** C76: for an eigenvalue, the computed eigenfunction is the normalised eigenfunction of the problem: a solution of the
    equation with both boundary conditions, as many zeros as the index says, and the integral of its square equal to 1;
    eigenfunctions of different eigenvalues are orthogonal. *)
From Coq Require Import String Reals Ranalysis5 ZArith Lra Lia Bool.
From Coquelicot Require Import Coquelicot.
From Coq Require Import List FinFun Sorting.Sorted.
Open Scope R_scope.
From Verif Require Import Base M_Search M_Sectors S_Sectors P_Lookup M_Core S_Core S_Eigen P_Prufer P_Core P_Core2 M_Eigen P_Eigen P_Eigen2 P_Eigen3 T_Eigen S_Accuracy S_Zeros
  S_Formulas M_Formulas P_Lift P_Global2 P_Global5 P_Count P_Count2 P_Constant P_Sturm2 P_Sturm3 T_Zeros T_Sturm P_EigenX P_EigenX2 P_EigenX3.
Import ListNotations.
Open Scope R_scope.

(** w, with derivative w', is the normalised eigenfunction number k: it solves the equation, starts as a positive multiple of
    the left boundary values, satisfies the right boundary condition, has k zeros inside, and has unit norm *)
Definition normalised_eigenfunction (V : R -> R) (lo hi : R) (l : list sec) (left right : Y) (k : Z) (E : R) (w w' : R -> R) : Prop :=
  solution V E lo hi l w w' /\ (exists c, 0 < c /\ w lo = c * y0 left /\ w' lo = c * y1 left) /\ w hi * y1 right = w' hi * y0 right /\
  (exists zs, lists_zeros w (fun x => lo < x < hi) zs /\ k = Z.of_nat (length zs)) /\ is_RInt (fun x => w x * w x) lo hi 1.
(** the step matrices of every sector containing x are exact for steps ending at x *)
Definition exact_point (calcT : sec -> R -> R -> bool -> Tm) (V : R -> R) (l : list sec) (E x : R) : Prop :=
  forall s, In s l -> smin s <= x <= smax s -> exact_to calcT V E true s x.

Lemma sector_of : forall l lo hi x, partition lo hi l -> (forall s : sec, In s l -> smin s < smax s) -> lo <= x <= hi ->
  exists i s, nth_error l i = Some s /\ smin s <= x <= smax s.
Proof.
  intros l lo hi x PT OS Hx. pose proof (n_pos l lo hi PT).
  destruct (at_sector (fun _ _ _ _ => Tid) 0 l lo hi 0 PT OS 0 ltac:(lia) (mkY 0 0 0 0) (mkY 0 0 0 0) x Hx) as (j & s & Hj & Hs & _). eauto.
Qed.

Theorem C76_eigenfunction : forall calcT vm l m sm lo hi V left right k E eps,
  partition lo hi l -> directions_ok l m -> vget l m = Ret sm -> nonzero left -> nonzero right ->
  e0 left = 0 -> e1 left = 0 -> e0 right = 0 -> e1 right = 0 -> 0 < eps ->
  (forall E', Rabs (E' - E) < eps -> exact_at calcT V lo hi l (smax sm) left right E') ->
  (forall s, In s l -> T_deriv (fun E => calcT s E (sh s) true) E) ->
  eigen_index V lo hi l left right k E ->
  exists w w', normalised_eigenfunction V lo hi l left right k E w w' /\
    (forall x, lo <= x <= hi -> exact_point calcT V l E x -> eigenfunction_at calcT vm l m E lo hi left right x = Ret (w x, w' x)) /\
    (forall xs, (forall x, In x xs -> lo <= x <= hi -> exact_point calcT V l E x) -> exists vs,
       eigenfunction_on calcT vm l m E lo hi left right xs = Ret vs /\
       Forall2 (fun x v => v = if Rltb x lo || Rltb hi x then (0, 0) else (w x, w' x)) xs vs).
Proof.
  intros calcT vm l m sm lo hi V left right k E eps PT Hd Hm NL NR L0 L1 R0 R1 He X TD (z & z' & zs & Sol & Nz & BL & BR & LZ & EK).
  assert (exact_at calcT V lo hi l (smax sm) left right E) as (C1 & C2 & _) by (apply X; rewrite Rminus_eq_0, Rabs_R0; exact He).
  assert (forall s, In s l -> smin s < smax s) as OS by (intros s Hs; apply (C1 s Hs)).
  assert (exists M, m = Z.of_nat M /\ nth_error l M = Some sm) as (M & -> & Hsm).
  { unfold vget in Hm. destruct (Z.ltb_spec m 0); [discriminate|]. destruct (nth_error l (Z.to_nat m)) eqn:Q; [|discriminate]. injection Hm as ->. exists (Z.to_nat m). split; [lia|exact Q]. }
  assert (M < length l)%nat as HM by (apply nth_error_Some; congruence).
  destruct (chain_order l lo hi (proj2 PT) (OS' l OS)) as [Hlh CO].
  destruct (resolved_bounded V l ltac:(intros s Hs; apply (C1 s Hs))) as (B & HB0 & HB).
  destruct (parallel (z lo) (z' lo) (y0 left) (y1 left) (Nz lo ltac:(lra)) NL BL) as (kl & Nkl & K0 & K1).
  destruct (parallel (z hi) (z' hi) (y0 right) (y1 right) (Nz hi ltac:(lra)) NR BR) as (kr & Nkr & K2 & K3).
  assert (forall E', Rabs (E' - E) < eps -> (forall s, In s l -> exact_to calcT V E' true s (far_end s)) /\
    (exists z z', solution V E' lo hi l z z' /\ z lo = y0 left /\ z' lo = y1 left) /\ (exists z z', solution V E' lo hi l z z' /\ z hi = y0 right /\ z' hi = y1 right)) as Near.
  { intros E' HE'. destruct (X E' HE') as (D1 & D2 & D3). split; [|exact D3]. apply (full_exact calcT V E' lo hi l M sm PT OS Hsm Hd). intros s Hs. apply (D1 s Hs). }
  destruct (norm_value calcT vm l lo hi E V PT OS M Hd sm Hsm left right L0 L1 R0 R1 TD eps B He HB0 HB Near z z' Sol Nz kl kr Nkl Nkr (conj K0 K1) (conj K2 K3)) as (I & HI & _ & _ & UN).
  pose proof (proj1 (Near E ltac:(rewrite Rminus_eq_0, Rabs_R0; exact He))) as XE.
  pose proof (value_at_point calcT vm l lo hi E V PT OS M HM Hd z z' Sol XE left right kl kr (conj K0 K1) (conj K2 K3) sm Hsm Nz Nkl Nkr) as VP.
  destruct (matched calcT vm l lo hi E V PT OS M HM Hd z z' Sol XE left right kl kr (conj K0 K1) (conj K2 K3) sm Hsm Nz Nkl Nkr) as (Z0 & Nyl & Nyr).
  pose proof (norm_pos calcT vm l E M left right) as NP.
  pose proof (C36_array calcT vm l (Z.of_nat M) lo hi E left right) as ARR.
  assert (forall i s x, nth_error l i = Some s -> smin s <= x <= smax s ->
    from_sector calcT vm l (Z.of_nat M) E left right i x = eigenfunction_at calcT vm l (Z.of_nat M) E lo hi left right x) as FS.
  { intros i s x Hs Hx. rewrite (any_sector calcT vm l lo hi E PT OS M HM left right Hd Z0 Nyl Nyr i s x Hs Hx). unfold from_sector. rewrite steps_val by exact HM. reflexivity. }
  set (n := norm_of _ _ _) in *. clearbody n. set (w := fun x => kl / n * z x). set (w' := fun x => kl / n * z' x).
  assert (forall x, lo <= x <= hi -> exact_point calcT V l E x -> eigenfunction_at calcT vm l (Z.of_nat M) E lo hi left right x = Ret (w x, w' x)) as AT.
  { intros x Hx XP. destruct (sector_of l lo hi x PT OS Hx) as (i & s & Hi & Hs). apply (VP i s x Hi Hs). apply XP; [apply (nth_error_In _ _ Hi)|exact Hs]. }
  assert (kl / n <> 0) as Nc by (apply Rmult_integral_contrapositive_currified; [exact Nkl|apply Rinv_neq_0_compat; lra]).
  exists w, w'. split; [|split; [exact AT|]].
  - split; [apply (scaled l lo hi E V z z' Sol)|]. split; [|split; [|split; [|exact UN]]].
    + exists (/ n). split; [apply Rinv_0_lt_compat, NP|]. rewrite K0, K1. unfold w, w'. split; field; lra.
    + unfold w, w'. rewrite !Rmult_assoc, BR. reflexivity.
    + exists zs. split; [|exact EK]. destruct LZ as [ND LZ]. split; [exact ND|]. intro x. rewrite LZ. unfold w. split; intros [Hx Zx]; (split; [exact Hx|]).
      * rewrite Zx. ring.
      * apply Rmult_integral in Zx. destruct Zx; [contradiction|assumption].
  - intros xs XP. destruct (ARR xs PT OS ltac:(lia)) as (vs & Ev & F). exists vs. split; [exact Ev|].
    assert (forall x, In x xs -> eigenfunction_at calcT vm l (Z.of_nat M) E lo hi left right x = Ret (if Rltb x lo || Rltb hi x then (0, 0) else (w x, w' x))) as EV.
    { intros x Hx. destruct (Rltb x lo || Rltb hi x) eqn:O.
      - destruct (C32_eigenfunction calcT vm l (Z.of_nat M) lo hi E left right PT ltac:(lia)) as [P _]. destruct (P x) as (v & -> & Z). rewrite Z; [reflexivity|].
        apply orb_true_iff in O. destruct O as [O|O]; apply Rltb_true in O; [left|right]; exact O.
      - apply orb_false_iff in O. destruct O as [O1 O2]. apply Rltb_false in O1. apply Rltb_false in O2. apply AT; [lra|apply XP; [exact Hx|lra]]. }
    clear Ev ARR XP. induction F as [|x v xs vs Hxv F IH]; [constructor|]. constructor; [|apply IH; intros; apply EV; right; assumption].
    specialize (EV x (or_introl eq_refl)). destruct Hxv as [Q|(i & s & s' & Hi & _ & Hx & _ & Q)].
    + rewrite Q in EV. injection EV as ->. reflexivity.
    + pose proof (OS s (nth_error_In _ _ Hi)). rewrite (FS i s x Hi ltac:(lra)) in Q. rewrite Q in EV. injection EV as ->. reflexivity.
Qed.

(** these conditions determine the eigenfunction: there is at most one *)
Theorem C76_unique : forall V lo hi l left right k1 k2 E u u' w w' B, partition lo hi l -> (forall s, In s l -> smin s < smax s) ->
  (forall s x, In s l -> smin s < x < smax s -> Rabs (V x) <= B) -> nonzero left ->
  normalised_eigenfunction V lo hi l left right k1 E u u' -> normalised_eigenfunction V lo hi l left right k2 E w w' ->
  (forall x, lo <= x <= hi -> u x = w x /\ u' x = w' x) /\ k1 = k2.
Proof.
  intros V lo hi l left right k1 k2 E u u' w w' B PT OS HB NL (Su & (c & Hc & U0 & U1) & _ & (zs & LZ & EK) & IU) (Sw & (d & Hd & W0 & W1) & _ & (ws & LW & EW) & IW).
  destruct (chain_order l lo hi (proj2 PT) (OS' l OS)) as [Hlh CO].
  destruct (first_sec l lo hi PT) as (s0 & E0 & _). pose proof (nth_error_In _ _ E0) as I0. pose proof (OS s0 I0) as O0.
  assert (0 <= B) as HB0 by (pose proof (HB s0 ((smin s0 + smax s0) / 2) I0 ltac:(lra)); pose proof (Rabs_pos (V ((smin s0 + smax s0) / 2))); lra).
  pose proof (solution_unique V l lo hi B (proj2 PT) (OS' l OS) HB HB0 E u u' w w' Su Sw (c / d) lo ltac:(lra)) as UQ.
  specialize (UQ ltac:(rewrite U0, W0; field; lra) ltac:(rewrite U1, W1; field; lra)).
  assert (is_RInt (fun x => u x * u x) lo hi (c / d * (c / d) * 1)) as Q.
  { apply (is_RInt_scal _ _ _ (c / d * (c / d))) in IW. eapply is_RInt_ext; [|exact IW]. intros x Hx. rewrite Rmin_left, Rmax_right in Hx by lra.
    destruct (UQ x ltac:(lra)) as [-> _]. unfold scal; cbn; unfold mult; cbn. ring. }
  assert (c / d * (c / d) * 1 = 1) as K by (rewrite <- (is_RInt_unique _ _ _ _ Q), (is_RInt_unique _ _ _ _ IU); reflexivity).
  assert (0 < c / d) as P by (apply Rdiv_lt_0_compat; assumption). assert (c / d = 1) as K1 by nra. rewrite K1 in UQ.
  assert (forall x, lo <= x <= hi -> u x = w x /\ u' x = w' x) as UW by (intros x Hx; destruct (UQ x Hx); split; lra). split; [exact UW|].
  rewrite EK, EW. f_equal. destruct LZ as [N1 L1]. destruct LW as [N2 L2]. apply Nat.le_antisymm; apply NoDup_incl_length; try assumption; intros x Hx.
  - apply L2. apply L1 in Hx. destruct Hx as [Hx Zx]. split; [exact Hx|]. rewrite <- (proj1 (UW x ltac:(lra))). exact Zx.
  - apply L1. apply L2 in Hx. destruct Hx as [Hx Zx]. split; [exact Hx|]. rewrite (proj1 (UW x ltac:(lra))). exact Zx.
Qed.

(** eigenfunctions of different eigenvalues are orthogonal *)
Theorem C76_orthogonal : forall V lo hi l left right k1 k2 E1 E2 u u' w w', partition lo hi l -> (forall s, In s l -> smin s < smax s) -> nonzero right ->
  E1 <> E2 -> normalised_eigenfunction V lo hi l left right k1 E1 u u' -> normalised_eigenfunction V lo hi l left right k2 E2 w w' ->
  is_RInt (fun x => u x * w x) lo hi 0.
Proof.
  intros V lo hi l left right k1 k2 E1 E2 u u' w w' PT OS NR NE (Su & (c & Hc & U0 & U1) & BU & _) (Sw & (d & Hd & W0 & W1) & BW & _).
  destruct (chain_order l lo hi (proj2 PT) (OS' l OS)) as [Hlh CO]. destruct Su as [Cu Du]. destruct Sw as [Cw Dw].
  set (f := fun x => u (clamp lo hi x) * w (clamp lo hi x)).
  assert (forall x, continuous f x) as Cf.
  { intro x. assert (continuous (fun x => u (clamp lo hi x)) x) as Q1 by (apply clamp_comp_continuous; [exact Hlh|intros t Ht; apply Cu, Ht]).
    assert (continuous (fun x => w (clamp lo hi x)) x) as Q2 by (apply clamp_comp_continuous; [exact Hlh|intros t Ht; apply Cw, Ht]).
    apply (continuous_mult (fun x => u (clamp lo hi x)) (fun x => w (clamp lo hi x)) x Q1 Q2). }
  assert (forall a b, ex_RInt f a b) as XR by (intros a b; apply (ex_RInt_continuous f); intros; apply Cf).
  set (G := fun x => RInt f lo x).
  assert (forall x, is_derive G x (f x)) as D.
  { intro x. apply (is_derive_RInt f G lo x); [exists (mkposreal 1 Rlt_0_1); intros t _; apply (RInt_correct f), XR|apply Cf]. }
  assert (G lo = 0) as G0 by (unfold G; apply (RInt_point (V := R_CompleteNormedModule))).
  assert (G hi = 0) as GH.
  { pose proof (small_change l lo hi (proj2 PT) (OS' l OS) (fun x => u x * w' x - u' x * w x + (E2 - E1) * G x) (fun _ => 0) 0 ltac:(lra)) as SC.
    assert (forall x, lo <= x <= hi -> continuous (fun x => u x * w' x - u' x * w x + (E2 - E1) * G x) x) as K1.
    { intros x Hx. destruct (Cu x Hx) as [P1 P2]. destruct (Cw x Hx) as [P3 P4].
      apply (continuous_plus (fun x => u x * w' x - u' x * w x) (fun x => (E2 - E1) * G x)).
      - apply (continuous_minus (fun x => u x * w' x) (fun x => u' x * w x)); [apply (continuous_mult u w' x P1 P4)|apply (continuous_mult u' w x P2 P3)].
      - apply (continuous_mult (fun _ => E2 - E1) G); [apply continuous_const|]. apply (ex_derive_continuous G). eexists. apply D. }
    specialize (SC K1).
    assert (forall s x, In s l -> smin s < x < smax s -> is_derive (fun x => u x * w' x - u' x * w x + (E2 - E1) * G x) x 0 /\ Rabs 0 <= 0) as K2.
    { intros s x Hs Hx. destruct (Du s x Hs Hx) as [P1 P2]. destruct (Dw s x Hs Hx) as [P3 P4]. split; [|rewrite Rabs_R0; lra]. destruct (CO s Hs).
      pose proof (D x) as P5. unfold f in P5. rewrite clamp_id in P5 by lra.
      evar_last; [apply is_derive_plusR; [apply is_derive_minusR; apply is_derive_multR; eassumption|apply (is_derive_scal G x (E2 - E1) _ P5)]|]. ring. }
    specialize (SC K2 lo hi ltac:(lra) ltac:(lra)). cbv beta in SC. rewrite Rmult_0_l in SC.
    assert (u lo * w' lo - u' lo * w lo = 0) as WL by (rewrite U0, U1, W0, W1; ring).
    assert (u hi * w' hi - u' hi * w hi = 0) as WH.
    { destruct NR as [N|N].
      - apply (Rmult_eq_reg_r (y0 right)); [|exact N]. rewrite Rmult_0_l. transitivity (u hi * (w' hi * y0 right) - (u' hi * y0 right) * w hi); [ring|]. rewrite <- BW, <- BU. ring.
      - apply (Rmult_eq_reg_r (y1 right)); [|exact N]. rewrite Rmult_0_l. transitivity ((u hi * y1 right) * w' hi - u' hi * (w hi * y1 right)); [ring|]. rewrite BW, BU. ring. }
    rewrite WL, WH, G0 in SC. pose proof (Rabs_pos (0 + (E2 - E1) * G hi - (0 + (E2 - E1) * 0))) as AP.
    assert (Rabs (0 + (E2 - E1) * G hi - (0 + (E2 - E1) * 0)) = 0) as A0 by lra.
    destruct (Req_dec (0 + (E2 - E1) * G hi - (0 + (E2 - E1) * 0)) 0) as [Z|Z]; [|apply Rabs_no_R0 in Z; contradiction].
    assert ((E2 - E1) * G hi = 0) as Z' by lra. apply Rmult_integral in Z'. destruct Z' as [Z'|Z']; [exfalso; apply NE; lra|exact Z']. }
  rewrite <- GH. apply (is_RInt_ext f).
  - intros x Hx. rewrite Rmin_left, Rmax_right in Hx by lra. unfold f. rewrite clamp_id by lra. reflexivity.
  - apply (RInt_correct f), XR.
Qed.

(** Piecewise constant potentials, the code's step matrices with exact eta: nothing is left to assume, values at every point not
    closer than 10^-12 to the end of its sector. *)
Theorem C76_piecewise_constant : forall V lo hi l vm m sm left right k E, constant_problem V lo hi l -> directions_ok l m -> vget l m = Ret sm -> nonzero left -> nonzero right ->
  e0 left = 0 -> e1 left = 0 -> e0 right = 0 -> e1 right = 0 -> eigen_index V lo hi l left right k E ->
  let f := eigenfunction_at (calculateT eta_exact) vm l m E lo hi left right in
  exists w w', normalised_eigenfunction V lo hi l left right k E w w' /\
    (forall x, lo <= x <= hi -> (forall s, In s l -> smin s <= x <= smax s -> reachable s x) -> f x = Ret (w x, w' x)) /\
    (forall xs, (forall x, In x xs -> forall s, In s l -> smin s <= x <= smax s -> reachable s x) -> exists vs,
       eigenfunction_on (calculateT eta_exact) vm l m E lo hi left right xs = Ret vs /\
       Forall2 (fun x v => v = if Rltb x lo || Rltb hi x then (0, 0) else (w x, w' x)) xs vs).
Proof.
  intros V lo hi l vm m sm left right k E PC Hd Hm NL NR L0 L1 R0 R1 EI f. pose proof (constant_order V lo hi l PC) as Ho. pose proof PC as [PT H].
  assert (forall x, (forall s, In s l -> smin s <= x <= smax s -> reachable s x) -> exact_point (calculateT eta_exact) V l E x) as XP.
  { intros x Hx s Hs Hin. apply const_exact; [apply (H s Hs)|apply Ho, Hs|apply (H s Hs)|apply Hx; assumption]. }
  destruct (C76_eigenfunction (calculateT eta_exact) vm l m sm lo hi V left right k E 1 PT Hd Hm NL NR L0 L1 R0 R1 ltac:(lra)) as (w & w' & NE & AT & ARR); auto.
  - intros E' _. apply (constant_exact_at V lo hi l m sm left right E' PC Hm).
  - intros s Hs. destruct (H s Hs) as (_ & Hh & Hv & _). apply constant_T_deriv; assumption.
  - exists w, w'. split; [exact NE|]. split; [intros x Hx Hr; apply AT; [exact Hx|apply XP, Hr]|].
    intros xs Hr. apply ARR. intros x Hx _. apply XP, Hr, Hx.
Qed.

(** V = 0 on [0, 1] in two sectors, Dirichlet conditions, E = pi^2: the computed eigenfunction is sqrt 2 sin (pi x); at 1/4 the
    library returns the value 1 and the slope pi *)
Lemma ground_state : normalised_eigenfunction (fun _ => 0) 0 1 two_sectors dirichlet dirichlet 0 E1 (fun x => sqrt 2 * PI * wave 1 x) (fun x => sqrt 2 * PI * wave' 1 x).
Proof.
  pose proof PI_RGT_0 as HP. pose proof (sqrt_lt_R0 2 ltac:(lra)) as HS. assert (0 < sqrt 2 * PI) as HC by (apply Rmult_lt_0_compat; assumption).
  split; [apply solution_scale, wave_solution; lra|]. split; [|split; [|split]].
  - exists (sqrt 2 * PI). split; [exact HC|]. unfold dirichlet, wave, wave'; cbn [y0 y1]. rewrite !Rmult_0_r, sin_0, cos_0. split; [|ring]. unfold Rdiv. ring.
  - unfold dirichlet, wave, wave'; cbn [y0 y1]. replace (1 * PI * 1) with PI by ring. rewrite sin_PI. unfold Rdiv. ring.
  - exists []. split; [|reflexivity]. split; [constructor|]. intro x. split; [intros []|]. intros [Hx Z]. cbn. apply Rmult_integral in Z. destruct Z as [Z|Z]; [lra|]. unfold wave in Z.
    assert (0 < sin (1 * PI * x)) by (apply sin_gt_0; nra). assert (0 < sin (1 * PI * x) / (1 * PI)) by (apply Rdiv_lt_0_compat; lra). lra.
  - set (F := fun x => x - sin (PI * x) * cos (PI * x) / PI).
    assert (is_RInt (fun x => 2 * (sin (PI * x) * sin (PI * x))) 0 1 (minus (F 1) (F 0))) as Q.
    { apply (is_RInt_derive F).
      - intros x _. unfold F. pose proof (sin2_cos2 (PI * x)) as SC. unfold Rsqr in SC. evar_last; [auto_derive; [exact I|reflexivity]|].
        transitivity (1 - (cos (PI * x) * cos (PI * x) - sin (PI * x) * sin (PI * x))); [field; lra|]. replace (cos (PI * x) * cos (PI * x)) with (1 - sin (PI * x) * sin (PI * x)) by (rewrite <- SC; ring). ring.
      - intros t _. apply (ex_derive_continuous (fun x => 2 * (sin (PI * x) * sin (PI * x)))). auto_derive. exact I. }
    replace 1 with (minus (F 1) (F 0)) at 2.
    + eapply is_RInt_ext; [|exact Q]. intros x _. unfold wave. replace (1 * PI * x) with (PI * x) by ring.
      replace (sqrt 2 * PI * (sin (PI * x) / (1 * PI)) * (sqrt 2 * PI * (sin (PI * x) / (1 * PI)))) with ((sqrt 2 * sqrt 2) * (sin (PI * x) * sin (PI * x))) by (field; lra).
      rewrite sqrt_sqrt by lra. reflexivity.
    + unfold minus, plus, opp, F; cbn. rewrite !Rmult_1_r, !Rmult_0_r, sin_PI, sin_0. field. lra.
Qed.
Example C76_case : eigenfunction_at (calculateT eta_exact) 0 two_sectors 0 E1 0 1 dirichlet dirichlet (1 / 4) = Ret (1, PI).
Proof.
  assert (directions_ok two_sectors 0) as Hd by (intros [|[|k]] s Hs; cbn in Hs; [injection Hs as <-; reflexivity|injection Hs as <-; reflexivity|destruct k; discriminate]).
  destruct (C76_piecewise_constant (fun _ => 0) 0 1 two_sectors 0 0 (mkSector 0 (1 / 2) Dfwd [0]) dirichlet dirichlet 0 E1 two_sectors_ok Hd eq_refl nz_dirichlet nz_dirichlet eq_refl eq_refl eq_refl eq_refl index_0) as (w & w' & NE & AT & _).
  rewrite AT; [|lra|].
  - destruct (C76_unique (fun _ => 0) 0 1 two_sectors dirichlet dirichlet 0 0 E1 w w' _ _ 0 (proj1 two_sectors_ok) (constant_order _ _ _ _ two_sectors_ok) ltac:(intros; cbv beta; rewrite Rabs_R0; lra) nz_dirichlet NE ground_state) as [U _].
    destruct (U (1 / 4) ltac:(lra)) as [-> ->]. unfold wave, wave'. pose proof PI_RGT_0 as HP. replace (1 * PI * (1 / 4)) with (PI / 4) by field. rewrite sin_PI4, cos_PI4.
    pose proof (sqrt_lt_R0 2 ltac:(lra)). f_equal. f_equal; field; lra.
  - intros s [<-|[<-|[]]]; cbn [smin smax]; intros Hx; [|lra]. right. unfold from_base, reach, sh; cbn [smin smax sdir].
    assert (Rmax 0 (Rmin (1 / 4) (1 / 2)) = 1 / 4) as -> by (unfold Rmax, Rmin; repeat destruct (Rle_dec _ _); lra).
    assert (/ 10 ^ 12 < 1 / 4). { replace (1 / 4) with (/ 4) by field. apply Rinv_lt_contravar; [apply Rmult_lt_0_compat; [lra|apply pow_lt; lra]|]. apply Rlt_le_trans with (10 ^ 1); [lra|]. apply Rle_pow; [lra|lia]. }
    split; [lra|]. right. lra.
Qed.
Example C76_orthogonal_case : forall w w', normalised_eigenfunction (fun _ => 0) 0 1 two_sectors dirichlet dirichlet 1 E2 w w' ->
  is_RInt (fun x => sqrt 2 * PI * wave 1 x * w x) 0 1 0.
Proof.
  intros w w' NE. pose proof E1_E2. apply (C76_orthogonal (fun _ => 0) 0 1 two_sectors dirichlet dirichlet 0 1 E1 E2 _ _ w w' (proj1 two_sectors_ok) (constant_order _ _ _ _ two_sectors_ok) nz_dirichlet ltac:(lra) ground_state NE).
Qed.

Print Assumptions C76_eigenfunction.
Print Assumptions C76_unique.
Print Assumptions C76_orthogonal.
Print Assumptions C76_piecewise_constant.
