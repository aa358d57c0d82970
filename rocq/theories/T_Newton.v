(** C81: Newton's iteration converges to the eigenvalue when it starts near it; what eigenvalueError says about the error. *)
From Coq Require Import String ZArith Reals Lra Lia Bool.
From Coquelicot Require Import Coquelicot.
From Coq Require Import List Sorting.Sorted.
From Verif Require Import Base M_Search S_Search M_Sectors S_Sectors M_Core S_Core S_Accuracy S_Zeros S_Formulas M_Formulas P_Sturm2 P_Sturm3 T_Zeros T_Sturm T_Search T_Bracket P_Newton P_Newton2 P_Newton3.
Import ListNotations.
Open Scope R_scope.

(** On the ball of radius rho around Es the matching error (first component) vanishes at Es, has the second component as its
    derivative, the derivative does not vanish and varies by at most half of itself, and the angle (third component) rounds to k pi. *)
Definition newton_ball (me : R -> bool -> R * R * R) (u : bool) (k : Z) (Es rho : R) : Prop :=
  fst (fst (me Es u)) = 0 /\
  (forall y, Rabs (y - Es) <= rho -> is_derive (fun E => fst (fst (me E u))) y (snd (fst (me y u)))) /\
  (forall y, Rabs (y - Es) <= rho -> snd (fst (me y u)) <> 0) /\
  (forall y z, Rabs (y - Es) <= rho -> Rabs (z - Es) <= rho -> Rabs (snd (fst (me z u)) - snd (fst (me y u))) <= / 2 * Rabs (snd (fst (me y u)))) /\
  (forall y, Rabs (y - Es) <= rho -> Rabs (snd (me y u) / PI - IZR k) < / 2).

(** Any starting point in the ball: the index is right, the result at most half as far from the eigenvalue as the start, and, the
    iteration halving the distance in each of its at most 20 steps, within tol or rho / 2^20. *)
Theorem C81_newton : forall me u k Es rho tol E, (0 <= k <= 2147483647)%Z -> newton_ball me u k Es rho -> Rabs (E - Es) <= rho ->
  exists E', newton me tol E u = Ret (k, E') /\ Rabs (E' - Es) <= / 2 * Rabs (E - Es) /\ Rabs (E' - Es) <= Rmax tol (rho / 2 ^ 20).
Proof.
  intros me u k Es rho tol E Hk (H0 & HD & HN & HV & HA) HE.
  destruct (newton_converges me tol Es rho u H0 HD HN HV k E Hk HA HE) as (E' & El & A & B & C & D & _ & F).
  exists E'. split; [exact A|]. split; [|exact F].
  set (r := Rabs (E - Es)) in *. pose proof (Rabs_pos (E - Es)) as Hr. fold r in Hr.
  assert (sub : forall y, Rabs (y - Es) <= r -> Rabs (y - Es) <= rho) by (intros; lra).
  assert (HDr : forall y, Rabs (y - Es) <= r -> is_derive (err_of me u) y (der_of me u y)) by (intros y Hy; apply HD, sub, Hy).
  assert (HNr : forall y, Rabs (y - Es) <= r -> der_of me u y <> 0) by (intros y Hy; apply HN, sub, Hy).
  assert (HVr : forall y z, Rabs (y - Es) <= r -> Rabs (z - Es) <= r -> Rabs (der_of me u z - der_of me u y) <= / 2 * Rabs (der_of me u y)) by (intros y z Hy Hz; apply HV; apply sub; assumption).
  assert (HAr : forall y, Rabs (y - Es) <= r -> Rabs (ang_of me u y - IZR k) < / 2) by (intros y Hy; apply HA, sub, Hy).
  destruct (newton_converges me tol Es r u H0 HDr HNr HVr k E Hk HAr (Rle_refl _)) as (E2 & El2 & A2 & B2 & _ & D2 & _).
  rewrite A in A2. injection A2 as <-. lra.
Qed.
(** The last step squares the distance: with a Lipschitz derivative bounded away from 0 the result of one step is within M / m times the square. *)
Theorem C81_quadratic : forall (me : R -> bool -> R * R * R) u Es rho mm M E, fst (fst (me Es u)) = 0 -> 0 < mm -> 0 <= M ->
  (forall y, Rabs (y - Es) <= rho -> is_derive (fun E => fst (fst (me E u))) y (snd (fst (me y u)))) ->
  (forall y z, Rabs (y - Es) <= rho -> Rabs (z - Es) <= rho -> Rabs (snd (fst (me z u)) - snd (fst (me y u))) <= M * Rabs (z - y)) ->
  Rabs (E - Es) <= rho -> mm <= Rabs (snd (fst (me E u))) ->
  Rabs (E - fst (fst (me E u)) / snd (fst (me E u)) - Es) <= M / mm * (Rabs (E - Es) * Rabs (E - Es)).
Proof. intros me u Es rho mm M E. exact (newton_quadratic (fun E => fst (fst (me E u))) (fun E => snd (fst (me E u))) Es rho mm M E). Qed.

(** eigenvalueError, asked in the ball, is between half and three halves of the true distance to the eigenvalue *)
Theorem C81_error : forall me k Es rho tol E, (0 <= k <= 2147483647)%Z -> newton_ball me false k Es rho -> Rabs (E - Es) <= rho ->
  exists e, eigenvalueError me tol E = Ret e /\ / 2 * Rabs (E - Es) <= e <= 3 / 2 * Rabs (E - Es).
Proof.
  intros me k Es rho tol E Hk HB HE. destruct (C81_newton me false k Es rho tol E Hk HB HE) as (E' & A & B & _).
  exists (Rabs (E - E')). unfold eigenvalueError. rewrite A. cbn [bind snd]. split; [reflexivity|].
  pose proof (Rabs_triang (E - E') (E' - Es)) as T1. replace (E - E' + (E' - Es)) with (E - Es) in T1 by ring.
  pose proof (Rabs_triang (E - Es) (Es - E')) as T2. replace (E - Es + (Es - E')) with (E - E') in T2 by ring. rewrite (Rabs_minus_sym Es) in T2. lra.
Qed.

(** ---- where such balls come from: every eigenvalue of a problem with exact steps has one *)
Theorem C81_local : forall calcT vm l m sm lo hi V left right k E eps, partition lo hi l -> vget l m = Ret sm -> smax sm < hi -> nonzero left -> nonzero right ->
  e0 left = 0 -> e1 left = 0 -> e0 right = 0 -> e1 right = 0 -> 0 < eps ->
  (forall E', Rabs (E' - E) < eps -> exact_at calcT V lo hi l (smax sm) left right E') ->
  (forall s d E', In s l -> Rabs (E' - E) < eps -> T_deriv (fun E => calcT s E d true) E') -> (forall s d, In s l -> T_cont (fun E => calcT s E d true) E) ->
  eigen_index V lo hi l left right k E ->
  exists rho0, 0 < rho0 /\ forall rho, rho <= rho0 -> newton_ball (me_of calcT vm l m lo hi left right) true k E rho.
Proof.
  intros calcT vm l m sm lo hi V left right k E eps PT Hm Hsm NL NR L0 L1 R0 R1 He X TD TC EI. set (me := me_of calcT vm l m lo hi left right).
  assert (Rabs (E - E) < eps) as Hself by (rewrite Rminus_eq_0, Rabs_R0; exact He).
  assert (forall s, In s l -> smin s < smax s) as Ho by (intros s Hs; apply (proj1 (X E Hself) s Hs)).
  destruct (simple_root calcT vm l m sm lo hi V left right PT Hm NL NR L0 L1 R0 R1 E eps He X ltac:(intros; apply TD; auto) k EI) as [Z0 Nd]. fold me in Z0, Nd.
  pose proof (der_cont calcT vm l m sm lo hi left right true PT Ho Hm E TC) as DC. fold me in DC.
  pose proof (C65_continuous calcT vm l m sm lo hi V left right (E - eps) (E + eps) PT Hm Hsm NL NR ltac:(intros y Hy; apply X; apply Rabs_def1; lra) E E ltac:(lra) ltac:(lra) E ltac:(lra)) as AC.
  apply continuity_pt_filterlim in AC.
  assert (forall y, Rabs (y - E) <= eps / 2 -> is_derive (err_of me true) y (der_of me true y)) as D.
  { intros y Hy. apply (err_deriv calcT vm l m sm lo hi left right true PT Ho Hm y); auto. intros s d Hs. apply TD; [exact Hs|lra]. }
  pose proof (proj2 (C65_index calcT vm l m sm lo hi V left right E k PT Hm Hsm NL NR (X E Hself)) EI) as AI. unfold eigenvalue_of in AI.
  destruct (simple_zero_neighbourhood me true E k (eps / 2) ltac:(lra) D DC Nd AC AI) as (rho & Hr & P1 & P2 & P3 & P4).
  exists rho. split; [apply Hr|]. intros r Hrr.
  split; [exact Z0|]. split; [intros y Hy; apply (P1 y); lra|]. split; [intros y Hy; apply (P2 y); lra|].
  split; [intros y z Hy Hz; apply (P3 y z); lra|]. intros y Hy. apply (P4 y). lra.
Qed.

(** ---- nothing assumed: piecewise constant potentials *)
Definition fixed_ends (left right : Y) : Prop := e0 left = 0 /\ e1 left = 0 /\ e0 right = 0 /\ e1 right = 0.
Theorem C81_piecewise_constant : forall V lo hi l vm m sm left right k E, constant_problem V lo hi l -> vget l m = Ret sm -> smax sm < hi ->
  nonzero left -> nonzero right -> fixed_ends left right -> eigen_index V lo hi l left right k E -> (k <= 2147483647)%Z ->
  let me := me_of (calculateT eta_exact) vm l m lo hi left right in
  exists rho0, 0 < rho0 /\ forall rho tol E0, rho <= rho0 -> Rabs (E0 - E) <= rho ->
    (forall u, exists E', newton me tol E0 u = Ret (k, E') /\ Rabs (E' - E) <= / 2 * Rabs (E0 - E) /\ Rabs (E' - E) <= Rmax tol (rho / 2 ^ 20)) /\
    (exists e, eigenvalueError me tol E0 = Ret e /\ / 2 * Rabs (E0 - E) <= e <= 3 / 2 * Rabs (E0 - E)).
Proof.
  intros V lo hi l vm m sm left right k E PC Hm Hsm NL NR (L0 & L1 & R0 & R1) EI Hk me. pose proof PC as [PT H].
  assert (forall s d u E', In s l -> T_deriv (fun E => calculateT eta_exact s E d u) E') as TD.
  { intros s d u E' Hs. apply calculateT_constant_deriv. destruct (H s Hs) as (_ & _ & Hv & _). exact Hv. }
  destruct (C81_local (calculateT eta_exact) vm l m sm lo hi V left right k E 1 PT Hm Hsm NL NR L0 L1 R0 R1 ltac:(lra)) as (rho0 & Hr & HB); auto.
  { intros E' _. apply (constant_exact_at V lo hi l m sm left right E' PC Hm). }
  { intros s d _. apply calculateT_cont. }
  assert (0 <= k <= 2147483647)%Z as Hk' by (destruct EI as (z & z' & zs & _ & _ & _ & _ & _ & ->); lia).
  assert (Sm : forall E, me E false = me E true) by (apply (me_same V lo hi l vm m sm left right PC Hm NL NR L0 L1 R0 R1)).
  exists rho0. split; [exact Hr|]. intros rho tol E0 Hrho HE0.
  assert (newton_ball me true k E rho) as B1 by (apply HB, Hrho).
  assert (forall u, newton_ball me u k E rho) as B2.
  { intros [|]; [exact B1|]. destruct B1 as (P0 & P1 & P2 & P3 & P4). unfold newton_ball.
    split; [rewrite Sm; exact P0|]. split; [intros y Hy; apply (is_derive_ext (fun E => fst (fst (me E true)))); [intro t; rewrite Sm; reflexivity|rewrite Sm; apply P1, Hy]|].
    split; [intros y Hy; rewrite Sm; apply P2, Hy|]. split; [intros y z Hy Hz; rewrite !Sm; apply P3; assumption|]. intros y Hy. rewrite Sm. apply P4, Hy. }
  split; [intro u; apply (C81_newton me u k E rho tol E0 Hk' (B2 u) HE0)|apply (C81_error me k E rho tol E0 Hk' (B2 false) HE0)].
Qed.

(** one radius for all eigenvalues with index below N *)
Lemma common_radius : forall V lo hi l vm m sm left right, constant_problem V lo hi l -> vget l m = Ret sm -> smax sm < hi -> nonzero left -> nonzero right -> fixed_ends left right ->
  forall N : nat, exists rho0, 0 < rho0 /\ forall k E, (0 <= k < Z.of_nat N)%Z -> (k <= 2147483647)%Z -> eigen_index V lo hi l left right k E ->
    forall rho tol E0, rho <= rho0 -> Rabs (E0 - E) <= rho ->
    exists E', newton (me_of (calculateT eta_exact) vm l m lo hi left right) tol E0 true = Ret (k, E') /\ Rabs (E' - E) <= Rmax tol (rho / 2 ^ 20).
Proof.
  intros V lo hi l vm m sm left right PC Hm Hsm NL NR FE. induction N as [|N (r & Hr & IH)]; [exists 1; split; [lra|intros; lia]|].
  destruct (Z.leb_spec (Z.of_nat N) 2147483647) as [Lk|Lk]; [|exists r; split; [exact Hr|intros k E Hk Hk2; apply IH; lia]].
  destruct (C72_exists_unique (calculateT eta_exact) vm l m sm lo hi V left right (proj1 PC) Hm Hsm NL NR ltac:(intro E; apply (constant_exact_at V lo hi l m sm left right E PC Hm)) (Z.of_nat N) ltac:(lia)) as (En & IN & U).
  destruct (C81_piecewise_constant V lo hi l vm m sm left right (Z.of_nat N) En PC Hm Hsm NL NR FE IN Lk) as (r2 & Hr2 & P).
  exists (Rmin r r2). split; [apply Rmin_pos; assumption|]. intros k E Hk Hk2 EI rho tol E0 Hrho HE0. pose proof (Rmin_l r r2). pose proof (Rmin_r r r2).
  destruct (Z.eq_dec k (Z.of_nat N)) as [->|Nk].
  - rewrite (U E EI) in *. destruct (P rho tol E0 ltac:(lra) HE0) as [Q _]. destruct (Q true) as (E' & A & _ & B). exists E'. split; assumption.
  - apply (IH k E); try lia; auto. lra.
Qed.

(** The search without the assumption on Newton's iteration: there is a distance rho0, depending on the problem only, such that if
    each isolated bracket's starting point is within rho <= rho0 of the eigenvalue in it, every eigenvalue asked for is returned,
    with its index, within max(tol, rho / 2^20). *)
Theorem C81_search : forall V lo hi l vm m sm left right (N : nat), constant_problem V lo hi l -> vget l m = Ret sm -> smax sm < hi -> nonzero left -> nonzero right -> fixed_ends left right ->
  let me := me_of (calculateT eta_exact) vm l m lo hi left right in
  exists rho0, 0 < rho0 /\ forall rho tol Emin Emax Imin Imax fuel leaves cuts, rho <= rho0 -> Emin < Emax ->
  not_eigenvalue V lo hi l left right Emin -> not_eigenvalue V lo hi l left right Emax ->
  eigenvalues_apart V lo hi l left right Emin Emax ((Emax - Emin) / 2 ^ 31) -> angle_difference (calculateT eta_exact) vm l m lo hi left right Emax <= 2147483647 ->
  (2 ^ 32 <= Z.of_nat fuel)%Z -> (0 <= Imin <= Imax)%Z -> (Imax <= Z.of_nat N)%Z -> (Imax <= 2147483647)%Z ->
  bisect me fuel Imin Imax (initial me Emin Emax) = Ret (leaves, cuts) -> Forall (not_eigenvalue V lo hi l left right) cuts ->
  (forall lf k E, In lf leaves -> inside lf E -> eigen_index V lo hi l left right k E -> Rabs (lc lf - E) <= rho) ->
  exists r, computeEigenvalues me tol fuel Emin Emax Imin Imax = Ret r /\
    (forall k E, (Imin <= k < Imax)%Z -> Emin < E < Emax -> eigen_index V lo hi l left right k E -> exists E', In (k, E') r /\ Rabs (E' - E) <= Rmax tol (rho / 2 ^ 20)) /\
    (forall k E', In (k, E') r -> (Imin <= k < Imax)%Z /\ exists E, Emin < E < Emax /\ eigen_index V lo hi l left right k E /\ Rabs (E' - E) <= Rmax tol (rho / 2 ^ 20)) /\
    StronglySorted (fun a b => (fst a < fst b)%Z) r.
Proof.
  intros V lo hi l vm m sm left right N PC Hm Hsm NL NR FE me.
  destruct (common_radius V lo hi l vm m sm left right PC Hm Hsm NL NR FE N) as (rho0 & Hr & P). exists rho0. split; [exact Hr|].
  intros rho tol Emin Emax Imin Imax fuel leaves cuts Hrho Hlt N1 N2 HS HF Hfuel HI HN HI2 Hb Nc Near.
  apply (C66_piecewise_constant V lo hi l vm m sm left right tol (Rmax tol (rho / 2 ^ 20)) Emin Emax Imin Imax fuel leaves cuts PC Hm Hsm NL NR Hlt N1 N2 HS HF Hfuel HI Hb Nc).
  set (F := angle_difference (calculateT eta_exact) vm l m lo hi left right) in *. pose proof PC as [PT _].
  assert (X : forall E, exact_at (calculateT eta_exact) V lo hi l (smax sm) left right E) by (intro E; apply (constant_exact_at V lo hi l m sm left right E PC Hm)).
  assert (forall E k, F E = IZR k <-> eigen_index V lo hi l left right k E) as I.
  { intros E k. apply (C65_index _ vm l m sm lo hi V left right E k PT Hm Hsm NL NR (X E)). }
  assert (rises_through_integers F Emin Emax) as HR by (apply (C65_rises _ vm l m sm lo hi V); auto).
  assert (continuous_on F Emin Emax) as HC by (apply (C65_continuous _ vm l m sm lo hi V left right (Emin - 1) (Emax + 1)); auto; lra).
  assert (forall E, not_eigenvalue V lo hi l left right E -> nonint (F E)) as NI. { intros E H k Hk. apply (H k). apply I; auto. }
  assert (-1 < F Emin) as FL by (apply (difference_lower _ vm l m sm lo hi V); auto).
  assert (-1 < F Emax) as FL2 by (apply (difference_lower _ vm l m sm lo hi V); auto).
  assert (F Emin <= 2147483647) as FU. { destruct (Rle_lt_dec (F Emin) 2147483647) as [L|L]; [exact L|]. pose proof (HR 2147483647%Z Emin Emax ltac:(lra) Hlt ltac:(lra) ltac:(lra)). lra. }
  assert (separated F Emin Emax ((Emax - Emin) / 2 ^ 31)) as SEP. { intros j k E1 E2 H1 H12 H2 J K. apply (HS j k E1 E2); auto; apply I; auto. }
  assert (fits_int (F Emin)) as F1 by (unfold fits_int; lra). assert (fits_int (F Emax)) as F2 by (unfold fits_int; lra).
  destruct (C27_brackets me Emin Emax Imin Imax fuel Hlt HR HC F1 F2 SEP (NI _ N1) (NI _ N2) Hfuel) as (lv & ct & Eb & _ & BB).
  assert (lv = leaves /\ ct = cuts) as [-> ->] by (rewrite Hb in Eb; injection Eb; auto).
  assert (Forall (fun c => nonint (F c)) cuts) as Ncut by (rewrite Forall_forall in *; intros c Hc; apply NI, Nc, Hc).
  destruct (BB Ncut) as [_ BL]. rewrite Forall_forall in BL.
  intros lf k E Hl Hi EI. destruct (BL lf Hl) as (_ & k0 & E0 & Hk0 & _ & _ & U). destruct (U k E Hi ltac:(apply I; exact EI)) as [-> _].
  apply (P k0 E); auto; try lia. apply (Near lf k0 E Hl Hi EI).
Qed.

(** V = 0 on [0, 1] in two sectors, Dirichlet conditions: around pi^2 Newton's iteration converges to it and reports index 0 *)
Example C81_case : exists rho0, 0 < rho0 /\ forall E0, Rabs (E0 - E1) <= rho0 ->
  (exists E', newton me0 0 E0 true = Ret (0%Z, E') /\ Rabs (E' - E1) <= rho0 / 2 ^ 20) /\
  (exists e, eigenvalueError me0 0 E0 = Ret e /\ / 2 * Rabs (E0 - E1) <= e <= 3 / 2 * Rabs (E0 - E1)).
Proof.
  destruct (C81_piecewise_constant (fun _ => 0) 0 1 two_sectors 0 0 (mkSector 0 (1 / 2) Dfwd [0]) dirichlet dirichlet 0 E1 two_sectors_ok eq_refl ltac:(cbn [smax]; lra)
    nz_dirichlet nz_dirichlet ltac:(repeat split) index_0 ltac:(lia)) as (rho0 & Hr & P).
  exists rho0. split; [exact Hr|]. intros E0 HE0. destruct (P rho0 0 E0 (Rle_refl _) HE0) as [A B]. split; [|exact B].
  destruct (A true) as (E' & N & _ & D). exists E'. split; [exact N|]. eapply Rle_trans; [exact D|]. apply Rmax_lub; [|apply Rle_refl].
  left. apply Rdiv_lt_0_compat; [exact Hr|apply pow_lt; lra].
Qed.
(** the hypotheses of [C81_newton] and [C81_quadratic] for the matching error E^2 - 1 around 1 *)
Definition ex_newton (E : R) (_ : bool) : R * R * R := (E * E - 1, 2 * E, 0).
Example C81_ball_case : newton_ball ex_newton true 0 1 (1 / 5).
Proof.
  unfold newton_ball, ex_newton. cbn [fst snd]. split; [ring|]. split; [intros y _; auto_derive; [exact I|ring]|].
  assert (forall y, Rabs (y - 1) <= 1 / 5 -> 4 / 5 <= y <= 6 / 5) as B by (intros y Hy; apply Rabs_le_between in Hy; lra).
  split; [intros y Hy; specialize (B y Hy); lra|]. split.
  - intros y z Hy Hz. apply B in Hy, Hz. rewrite (Rabs_right (2 * y)) by lra. apply Rabs_le. lra.
  - intros y _. unfold Rdiv. rewrite Rmult_0_l, Rminus_0_r, Rabs_R0. lra.
Qed.
Example C81_quadratic_case : Rabs (6 / 5 - (6 / 5 * (6 / 5) - 1) / (2 * (6 / 5)) - 1) <= 2 / 2 * (Rabs (6 / 5 - 1) * Rabs (6 / 5 - 1)).
Proof.
  apply (C81_quadratic ex_newton true 1 (1 / 5) 2 2 (6 / 5)); unfold ex_newton; cbn [fst snd]; try lra.
  - intros y _. auto_derive; [exact I|ring].
  - intros y z _ _. replace (2 * z - 2 * y) with (2 * (z - y)) by ring. rewrite Rabs_mult, (Rabs_right 2) by lra. lra.
  - rewrite Rabs_right by lra. lra.
  - rewrite Rabs_right by lra. lra.
Qed.

Print Assumptions C81_newton.
Print Assumptions C81_quadratic.
Print Assumptions C81_error.
Print Assumptions C81_local.
Print Assumptions C81_piecewise_constant.
Print Assumptions C81_search.
