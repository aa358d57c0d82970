(** C65: Sturm's theory of the angle difference computed by the matching: as a function of the energy it is continuous, rises
    through every multiple of pi, and equals k pi exactly at the eigenvalue whose eigenfunction has k zeros.
    C66: the eigenvalue search lists exactly the eigenvalues of the problem, each with the number of zeros as its index. *)
From Coq Require Import String Reals Ranalysis5 ZArith Lra Lia Bool.
From Coquelicot Require Import Coquelicot.
From Coq Require Import List FinFun Sorting.Sorted.
Open Scope R_scope.
From Verif Require Import Base S_Sectors M_Sectors P_Lookup M_Core S_Core P_Core P_Core2 P_Prufer S_Eta P_Eta S_Formulas M_Formulas P_Terms2 T_Formulas S_Accuracy S_Zeros
  P_Lift P_Lift2 P_Cross P_Global2 P_Global3 P_Step P_Step2 P_Count P_Count2 P_Global5 P_Constant P_Sturm P_Sturm2 P_Sturm3 T_Zeros M_Search S_Search T_Search.
Import ListNotations.
Open Scope R_scope.

Definition angle_difference calcT vm l m lo hi left right : R -> R := M_Search.ang (me_of calcT vm l m lo hi left right).

Lemma difference_value : forall calcT vm l m sm lo hi V left right E, partition lo hi l -> vget l m = Ret sm -> smax sm < hi -> nonzero left -> nonzero right ->
  exact_at calcT V lo hi l (smax sm) left right E ->
  angle_difference calcT vm l m lo hi left right E * PI = thL calcT vm l sm lo hi left E - thR calcT vm l sm lo hi right E.
Proof.
  intros calcT vm l m sm lo hi V left right E PT Hm Hsm NL NR X. pose proof PIpos.
  destruct (at_energy calcT vm l m sm lo hi V left right PT Hm Hsm NL NR E X) as (_ & _ & zL & zL' & AL & zR & zR' & AR & derr & _ & _ & _ & _ & _ & _ & ME).
  unfold angle_difference, M_Search.ang, me_of. rewrite ME. cbn [snd]. unfold sdiv, spi, Scalar_R, Conv_R. field. lra.
Qed.

(** ---- C65 *)
Theorem C65_rises : forall calcT vm l m sm lo hi V left right p q, partition lo hi l -> vget l m = Ret sm -> smax sm < hi -> nonzero left -> nonzero right ->
  (forall E, p <= E <= q -> exact_at calcT V lo hi l (smax sm) left right E) ->
  rises_through_integers (angle_difference calcT vm l m lo hi left right) p q.
Proof.
  intros calcT vm l m sm lo hi V left right p q PT Hm Hsm NL NR X k E1 E2 H1 H12 H2 Hk. pose proof PIpos as HP.
  apply (Rmult_lt_reg_r PI); [exact HP|]. apply (Rmult_le_compat_r PI) in Hk; [|lra].
  rewrite (difference_value calcT vm l m sm lo hi V) in * by (auto; apply X; lra).
  apply (rises calcT vm l m sm lo hi V left right PT Hm Hsm NL NR E1 E2); auto; apply X; lra.
Qed.
Theorem C65_continuous : forall calcT vm l m sm lo hi V left right p q, partition lo hi l -> vget l m = Ret sm -> smax sm < hi -> nonzero left -> nonzero right ->
  (forall E, p < E < q -> exact_at calcT V lo hi l (smax sm) left right E) ->
  forall a b, p < a -> b < q -> continuous_on (angle_difference calcT vm l m lo hi left right) a b.
Proof.
  intros calcT vm l m sm lo hi V left right p q PT Hm Hsm NL NR X a b Ha Hb E HE. pose proof PIpos as HP.
  apply continuity_pt_filterlim.
  pose proof (difference_continuous calcT vm l m sm lo hi V left right PT Hm Hsm NL NR p q E ltac:(lra) X) as C.
  apply (continuous_ext_loc _ (fun E => (thL calcT vm l sm lo hi left E - thR calcT vm l sm lo hi right E) / PI)).
  - assert (0 < Rmin (E - p) (q - E)) as Hd by (apply Rmin_glb_lt; lra). exists (mkposreal _ Hd). intros y Hy.
    unfold ball in Hy. cbn in Hy. unfold AbsRing_ball, abs, minus, plus, opp in Hy. cbn in Hy. fold (Rminus y E) in Hy. apply Rabs_def2 in Hy.
    pose proof (Rmin_l (E - p) (q - E)). pose proof (Rmin_r (E - p) (q - E)).
    pose proof (difference_value calcT vm l m sm lo hi V left right y PT Hm Hsm NL NR ltac:(apply X; lra)) as DV. rewrite <- DV. unfold Rdiv. rewrite Rmult_assoc, Rinv_r, Rmult_1_r by lra. reflexivity.
  - unfold Rdiv. apply (continuous_mult (fun E => thL calcT vm l sm lo hi left E - thR calcT vm l sm lo hi right E) (fun _ => / PI)); [exact C|apply continuous_const].
Qed.

Lemma parallel_sides : forall u v u' v' a b k, u <> 0 \/ v <> 0 -> u * cos a = v * sin a -> u' * cos b = v' * sin b -> a - b = IZR k * PI -> u * v' = v * u'.
Proof.
  intros u v u' v' a b k N H1 H2 Hk. assert (a = b + IZR k * PI) as -> by lra. destruct (shift_sign k) as (e & He & S). destruct (S b) as [S1 S2]. rewrite S1, S2 in H1.
  assert (e <> 0) as Ne by nra. assert (u * cos b = v * sin b) as H3. { apply (Rmult_eq_reg_l e); [lra|exact Ne]. }
  pose proof (sin2_cos2 b) as Q. unfold Rsqr in Q.
  set (S0 := sin b) in *. set (C0 := cos b) in *.
  replace (u * v') with (u * v' * (S0 * S0 + C0 * C0)) by (rewrite Q; ring).
  replace (v * u') with (v * u' * (S0 * S0 + C0 * C0)) by (rewrite Q; ring).
  replace (u * v' * (S0 * S0 + C0 * C0)) with (u * S0 * (v' * S0) + (u * C0) * (v' * C0)) by ring. rewrite H3, <- H2.
  replace (u * S0 * (u' * C0) + v * S0 * (v' * C0)) with ((u * C0) * (u' * S0) + (v * C0) * (v' * S0)) by ring. rewrite H3, <- H2. ring.
Qed.

(** the angle difference is k pi exactly when E is the eigenvalue of index k *)
Theorem C65_index : forall calcT vm l m sm lo hi V left right E k, partition lo hi l -> vget l m = Ret sm -> smax sm < hi -> nonzero left -> nonzero right ->
  exact_at calcT V lo hi l (smax sm) left right E ->
  (eigenvalue_of (angle_difference calcT vm l m lo hi left right) k E <-> eigen_index V lo hi l left right k E).
Proof.
  intros calcT vm l m sm lo hi V left right E k PT Hm Hsm NL NR X. pose proof PIpos as HP.
  pose proof (difference_value calcT vm l m sm lo hi V left right E PT Hm Hsm NL NR X) as DV.
  destruct (at_energy calcT vm l m sm lo hi V left right PT Hm Hsm NL NR E X) as (Ho & Hc & zL & zL' & AL & zR & zR' & AR & derr & SL & SR & _ & _ & TL & TR & ME).
  destruct (order_in l lo hi PT Ho) as [Hlh O]. pose proof X as (CL & CR & _).
  destruct (resolved_bounded V l) as (M & HM & B); [intros s Hs; apply (CL s Hs)|].
  assert (forall z z', solution V E lo hi l z z' -> nontrivial z z' lo hi -> z lo * y1 left = z' lo * y0 left -> z hi * y1 right = z' hi * y0 right ->
    exists zs, lists_zeros z (fun x => lo < x < hi) zs /\ angle_difference calcT vm l m lo hi left right E = INR (length zs)) as K.
  { intros z z' Sol Nz L R.
    destruct (parallel (z lo) (z' lo) (y0 left) (y1 left) (Nz lo ltac:(lra)) NL L) as (kl & Hkl & L0 & L1).
    destruct (parallel (z hi) (z' hi) (y0 right) (y1 right) (Nz hi ltac:(lra)) NR R) as (kr & Hkr & R0 & R1).
    destruct (C64_matching calcT vm l m sm lo hi V E z z' true left right kl kr PT Hm CL CR Sol Nz Hkl Hkr Hsm L0 L1 R0 R1) as (de & zs & LZ & ME2).
    exists zs. split; [exact LZ|]. rewrite ME in ME2. injection ME2 as _ _ Q. rewrite Q in DV. apply (Rmult_eq_reg_r PI); lra. }
  unfold eigenvalue_of. split.
  - intro F. rewrite F in DV. rewrite <- TL, <- TR in DV.
    assert (AL (smax sm) = AR (smax sm) + IZR k * PI) as EA.
    { pose proof (rescale_shift (AR (smax sm)) k (scaling vm E)) as Q. pose proof (scaling_pos vm E) as HS.
      destruct (Rtotal_order (AL (smax sm)) (AR (smax sm) + IZR k * PI)) as [H|[H|H]]; [|exact H|]; apply (rescale_lt (scaling vm E)) in H; auto; lra. }
    destruct SL, SR.
    assert (zL (smax sm) * zR' (smax sm) = zL' (smax sm) * zR (smax sm)) as PA.
    { pose proof (proj2 side_ang (smax sm) ltac:(lra)) as Q1. pose proof (proj2 side_ang0 (smax sm) ltac:(lra)) as Q2. cbv beta in Q1, Q2. rewrite Rmult_1_l in Q1, Q2.
      apply (parallel_sides _ _ _ _ (AL (smax sm)) (AR (smax sm)) k); auto; [apply side_nz; lra|lra]. }
    destruct (parallel _ _ _ _ (side_nz (smax sm) ltac:(lra)) (side_nz0 (smax sm) ltac:(lra)) PA) as (j & Hj & J0 & J1).
    destruct (solution_unique V l lo hi M (proj2 PT) ltac:(intros s Hs; left; apply Ho, Hs) B HM E zR zR' zL zL' side_sol0 side_sol j (smax sm) ltac:(lra) J0 J1 hi ltac:(lra)) as [U0 U1].
    destruct (K zL zL' side_sol side_nz) as (zs & LZ & FZ).
    + rewrite side_0, side_1. ring.
    + rewrite <- side_2, <- side_3, U0, U1. ring.
    + exists zL, zL', zs. split; [exact side_sol|]. split; [exact side_nz|]. split; [rewrite side_0, side_1; ring|]. split; [rewrite <- side_2, <- side_3, U0, U1; ring|]. split; [exact LZ|].
      apply eq_IZR. rewrite <- INR_IZR_INZ, <- FZ. symmetry. exact F.
  - intros (z & z' & zs & Sol & Nz & L & R & LZ & EK). destruct (K z z' Sol Nz L R) as (ys & LY & FY).
    rewrite FY, EK, <- INR_IZR_INZ. f_equal. destruct LZ as [N1 H1], LY as [N2 H2].
    apply Nat.le_antisymm; apply NoDup_incl_length; auto; intros x Hx; [apply H1, H2, Hx|apply H2, H1, Hx].
Qed.

(** consequences, without mention of the algorithm: the eigenvalues are simple in their index, ordered by it, and every index
    between two that occur occurs *)
Theorem C65_oscillation : forall calcT l m sm lo hi V left right p q, partition lo hi l -> vget l m = Ret sm -> smax sm < hi -> nonzero left -> nonzero right ->
  (forall E, p < E < q -> exact_at calcT V lo hi l (smax sm) left right E) ->
  (forall j k E1 E2, p < E1 -> E1 < E2 -> E2 < q -> eigen_index V lo hi l left right j E1 -> eigen_index V lo hi l left right k E2 -> (j < k)%Z) /\
  (forall k i j E1 E2, p < E1 -> E1 < E2 -> E2 < q -> eigen_index V lo hi l left right i E1 -> eigen_index V lo hi l left right j E2 -> (i < k < j)%Z ->
     exists E, E1 < E < E2 /\ eigen_index V lo hi l left right k E).
Proof.
  intros calcT l m sm lo hi V left right p q PT Hm Hsm NL NR X. set (F := angle_difference calcT 0 l m lo hi left right).
  assert (forall E k, p < E < q -> (F E = IZR k <-> eigen_index V lo hi l left right k E)) as I.
  { intros E k HE. apply (C65_index calcT 0 l m sm lo hi V left right E k PT Hm Hsm NL NR (X E HE)). }
  split.
  - intros j k E1 E2 H1 H12 H2 J K. apply I in J; [|lra]. apply I in K; [|lra]. apply lt_IZR. rewrite <- K.
    apply (C65_rises calcT 0 l m sm lo hi V left right E1 E2 PT Hm Hsm NL NR ltac:(intros E HE; apply X; lra) j E1 E2); try lra. fold F. lra.
  - intros k i j E1 E2 H1 H12 H2 J K [Ki Kj]. apply I in J; [|lra]. apply I in K; [|lra].
    pose proof (C65_continuous calcT 0 l m sm lo hi V left right p q PT Hm Hsm NL NR X E1 E2 H1 H2) as C. fold F in C.
    apply IZR_lt in Ki, Kj.
    destruct (IVT_interv (fun E => F E - IZR k) E1 E2) as (E & HE & Z0); try lra.
    { intros E HE. apply continuity_pt_minus; [apply C, HE|apply continuity_pt_const; intros ? ?; reflexivity]. }
    assert (F E = IZR k) as FE by lra. exists E. split.
    + destruct HE as [[L|L] [L'|L']]; try (split; assumption); subst; lra.
    + apply I; [lra|exact FE].
Qed.

(** ---- C66 *)
Definition not_eigenvalue V lo hi l left right (E : R) : Prop := forall k, ~ eigen_index V lo hi l left right k E.
Definition eigenvalues_apart V lo hi l left right (Emin Emax g : R) : Prop :=
  forall j k E1 E2, Emin < E1 -> E1 < E2 -> E2 < Emax -> eigen_index V lo hi l left right j E1 -> eigen_index V lo hi l left right k E2 -> g <= E2 - E1.

Lemma difference_lower : forall calcT vm l m sm lo hi V left right E, partition lo hi l -> vget l m = Ret sm -> smax sm < hi -> nonzero left -> nonzero right ->
  exact_at calcT V lo hi l (smax sm) left right E -> -1 < angle_difference calcT vm l m lo hi left right E.
Proof.
  intros calcT vm l m sm lo hi V left right E PT Hm Hsm NL NR X. pose proof PIpos as HP.
  pose proof (difference_value calcT vm l m sm lo hi V left right E PT Hm Hsm NL NR X) as DV.
  destruct (at_energy calcT vm l m sm lo hi V left right PT Hm Hsm NL NR E X) as (Ho & Hc & zL & zL' & AL & zR & zR' & AR & derr & SL & SR & _ & _ & TL & TR & ME).
  destruct (order_in l lo hi PT Ho) as [Hlh O]. destruct SL, SR. unfold rgL, rgR in *.
  destruct (global_up l lo hi PT V E zL zL' side_sol side_nz Ho 1 AL ltac:(lra) side_ang) as [U1 U2].
  destruct (global_up l lo hi PT V E zR zR' side_sol0 side_nz0 Ho 1 AR ltac:(lra) side_ang0) as [W1 W2].
  pose proof (level_up AL lo hi (proj1 side_ang) U1 U2 0 lo (smax sm) ltac:(lra) Hc ltac:(lra)) as Q1. rewrite Rmult_0_l in Q1.
  pose proof (level_up AR lo hi (proj1 side_ang0) W1 W2 1 (smax sm) hi ltac:(lra) Hsm ltac:(lra)) as Q2. rewrite Rmult_1_l in Q2.
  assert (AR (smax sm) < PI) as Q3 by (destruct (Rlt_le_dec (AR (smax sm)) PI) as [?|L]; [assumption|specialize (Q2 L); lra]).
  assert (IZR (-1) * PI < AL (smax sm) - AR (smax sm)) as Q4 by (cbn; lra).
  apply (level_transfer_lt (scaling vm E)) in Q4; [|apply scaling_pos]. rewrite TL, TR, <- DV in Q4. apply (Rmult_lt_reg_r PI); lra.
Qed.

(** The search: if the steps are exact in a neighbourhood of [Emin, Emax], the energies probed are not themselves eigenvalues,
    eigenvalues are not closer than 2^-31 of the interval, there are fewer than 2^31 below Emax, and Newton's iteration in each
    isolated bracket ends with the bracket's index within [eps] of the eigenvalue in it, then computeEigenvalues returns one
    entry for each eigenvalue with index in [Imin, Imax): the number of zeros of its eigenfunction, and its energy within eps. *)
Theorem C66_eigenvalues : forall calcT vm l m sm lo hi V left right p q tol eps Emin Emax Imin Imax fuel leaves cuts,
  partition lo hi l -> vget l m = Ret sm -> smax sm < hi -> nonzero left -> nonzero right ->
  (forall E, p < E < q -> exact_at calcT V lo hi l (smax sm) left right E) -> p < Emin -> Emin < Emax -> Emax < q ->
  let me := me_of calcT vm l m lo hi left right in
  not_eigenvalue V lo hi l left right Emin -> not_eigenvalue V lo hi l left right Emax ->
  eigenvalues_apart V lo hi l left right Emin Emax ((Emax - Emin) / 2 ^ 31) -> angle_difference calcT vm l m lo hi left right Emax <= 2147483647 ->
  (2 ^ 32 <= Z.of_nat fuel)%Z -> (0 <= Imin <= Imax)%Z ->
  bisect me fuel Imin Imax (initial me Emin Emax) = Ret (leaves, cuts) -> Forall (not_eigenvalue V lo hi l left right) cuts ->
  (forall lf k E, In lf leaves -> inside lf E -> eigen_index V lo hi l left right k E -> exists E', newton me tol (lc lf) true = Ret (k, E') /\ Rabs (E' - E) <= eps) ->
  exists r, computeEigenvalues me tol fuel Emin Emax Imin Imax = Ret r /\
    (forall k E, (Imin <= k < Imax)%Z -> Emin < E < Emax -> eigen_index V lo hi l left right k E -> exists E', In (k, E') r /\ Rabs (E' - E) <= eps) /\
    (forall k E', In (k, E') r -> (Imin <= k < Imax)%Z /\ exists E, Emin < E < Emax /\ eigen_index V lo hi l left right k E /\ Rabs (E' - E) <= eps) /\
    StronglySorted (fun a b => (fst a < fst b)%Z) r.
Proof.
  intros calcT vm l m sm lo hi V left right p q tol eps Emin Emax Imin Imax fuel leaves cuts PT Hm Hsm NL NR X Hp Hlt Hq me N1 N2 HS HF Hfuel HII Hb Nc HN.
  set (F := angle_difference calcT vm l m lo hi left right) in *.
  assert (forall E k, p < E < q -> (F E = IZR k <-> eigen_index V lo hi l left right k E)) as I.
  { intros E k HE. apply (C65_index calcT vm l m sm lo hi V left right E k PT Hm Hsm NL NR (X E HE)). }
  assert (rises_through_integers F Emin Emax) as HR. { apply (C65_rises calcT vm l m sm lo hi V); auto. intros E HE. apply X. lra. }
  assert (continuous_on F Emin Emax) as HC. { apply (C65_continuous calcT vm l m sm lo hi V left right p q); auto. }
  assert (forall E, p < E < q -> not_eigenvalue V lo hi l left right E -> nonint (F E)) as NI. { intros E HE H k Hk. apply (H k). apply I; auto. }
  assert (-1 < F Emin) as FL. { apply (difference_lower calcT vm l m sm lo hi V); auto. apply X. lra. }
  assert (-1 < F Emax) as FL2. { apply (difference_lower calcT vm l m sm lo hi V); auto. apply X. lra. }
  assert (F Emin <= 2147483647) as FU. { destruct (Rle_lt_dec (F Emin) 2147483647) as [L|L]; [exact L|]. pose proof (HR 2147483647%Z Emin Emax ltac:(lra) Hlt ltac:(lra) ltac:(lra)). lra. }
  assert (separated F Emin Emax ((Emax - Emin) / 2 ^ 31)) as SEP. { intros j k E1 E2 H1 H12 H2 J K. apply (HS j k E1 E2); auto; apply I; auto; lra. }
  assert (fits_int (F Emin)) as F1 by (unfold fits_int; lra). assert (fits_int (F Emax)) as F2 by (unfold fits_int; lra).
  pose proof (NI Emin ltac:(lra) N1) as NI1. pose proof (NI Emax ltac:(lra) N2) as NI2.
  destruct (C27_brackets me Emin Emax Imin Imax fuel Hlt HR HC F1 F2 SEP NI1 NI2 Hfuel) as (lv & ct & Eb & Bc & BB).
  assert (lv = leaves /\ ct = cuts) as [-> ->] by (rewrite Hb in Eb; injection Eb; auto).
  assert (Forall (fun c => nonint (F c)) cuts) as Ncut. { rewrite Forall_forall in *. intros c Hc. specialize (Bc c Hc). apply NI; [lra|apply Nc, Hc]. }
  destruct (BB Ncut) as [_ BL]. rewrite Forall_forall in BL.
  destruct (C27_approximate me tol eps Emin Emax Imin Imax fuel leaves cuts Hlt HR HC F1 F2 SEP NI1 NI2 Hfuel HII Hb Ncut) as (r & Er & R1 & R2 & R3).
  { intros lf k E Hl Hi He. apply (HN lf k E Hl Hi). apply I; [|exact He]. destruct (BL lf Hl) as (A & _). unfold inside in Hi. lra. }
  exists r. split; [exact Er|]. split; [|split; [|exact R3]].
  - intros k E Hk HE He. apply R1; auto. apply I; [lra|exact He].
  - intros k E' Hi. destruct (R2 k E' Hi) as (Hk & E & HE & He & Hd). split; [exact Hk|]. exists E. split; [exact HE|]. split; [|exact Hd]. apply I; [lra|exact He].
Qed.

(** ---- without assumptions on the step matrices: piecewise constant potentials *)
Lemma constant_exact_at : forall V lo hi l m sm left right E, constant_problem V lo hi l -> vget l m = Ret sm ->
  exact_at (calculateT eta_exact) V lo hi l (smax sm) left right E.
Proof.
  intros V lo hi l m sm left right E PC Hm. assert (In sm l) as Hin. { unfold vget in Hm. destruct (m <? 0)%Z; [discriminate|]. destruct (nth_error l (Z.to_nat m)) eqn:Q; [|discriminate]. injection Hm as <-. apply (nth_error_In _ _ Q). } pose proof (constant_order V lo hi l PC) as Ho. pose proof PC as [PT H].
  split; [apply (constant_counting V lo hi l); [exact PC|left; reflexivity|right; right; exists sm; auto]|].
  split; [apply (constant_counting V lo hi l); [exact PC|right; left; reflexivity|right; right; exists sm; auto]|].
  split.
  - destruct (solution_from_left V E l lo hi (proj2 PT) ltac:(intros s Hs; split; [apply Ho, Hs|apply (H s Hs)]) (y0 left) (y1 left)) as (z & z' & C & Z0 & Z1 & D).
    exists z, z'. split; [split; [intros x _; apply C|exact D]|auto].
  - destruct (solution_from_right V E l lo hi (proj2 PT) ltac:(intros s Hs; split; [apply Ho, Hs|apply (H s Hs)]) (y0 right) (y1 right)) as (z & z' & C & Z0 & Z1 & D).
    exists z, z'. split; [split; [intros x _; apply C|exact D]|auto].
Qed.

Theorem C65_piecewise_constant : forall V lo hi l vm m sm left right, constant_problem V lo hi l -> vget l m = Ret sm -> smax sm < hi -> nonzero left -> nonzero right ->
  let F := angle_difference (calculateT eta_exact) vm l m lo hi left right in
  (forall p q, rises_through_integers F p q /\ continuous_on F p q) /\
  (forall k E, eigenvalue_of F k E <-> eigen_index V lo hi l left right k E) /\
  (forall j k E1 E2, E1 < E2 -> eigen_index V lo hi l left right j E1 -> eigen_index V lo hi l left right k E2 -> (j < k)%Z).
Proof.
  intros V lo hi l vm m sm left right PC Hm Hsm NL NR F.
  pose proof (fun E => constant_exact_at V lo hi l m sm left right E PC Hm) as X. pose proof PC as [PT _].
  split; [|split].
  - intros p q. split; [apply (C65_rises _ _ l m sm lo hi V); auto|]. apply (C65_continuous _ _ l m sm lo hi V left right (p - 1) (q + 1)); auto; lra.
  - intros k E. apply (C65_index _ _ l m sm lo hi V); auto.
  - intros j k E1 E2 HE. apply (proj1 (C65_oscillation _ l m sm lo hi V left right (E1 - 1) (E2 + 1) PT Hm Hsm NL NR (fun E _ => X E)) j k E1 E2); lra.
Qed.

Theorem C66_piecewise_constant : forall V lo hi l vm m sm left right tol eps Emin Emax Imin Imax fuel leaves cuts,
  constant_problem V lo hi l -> vget l m = Ret sm -> smax sm < hi -> nonzero left -> nonzero right -> Emin < Emax ->
  let me := me_of (calculateT eta_exact) vm l m lo hi left right in
  not_eigenvalue V lo hi l left right Emin -> not_eigenvalue V lo hi l left right Emax ->
  eigenvalues_apart V lo hi l left right Emin Emax ((Emax - Emin) / 2 ^ 31) -> angle_difference (calculateT eta_exact) vm l m lo hi left right Emax <= 2147483647 ->
  (2 ^ 32 <= Z.of_nat fuel)%Z -> (0 <= Imin <= Imax)%Z ->
  bisect me fuel Imin Imax (initial me Emin Emax) = Ret (leaves, cuts) -> Forall (not_eigenvalue V lo hi l left right) cuts ->
  (forall lf k E, In lf leaves -> inside lf E -> eigen_index V lo hi l left right k E -> exists E', newton me tol (lc lf) true = Ret (k, E') /\ Rabs (E' - E) <= eps) ->
  exists r, computeEigenvalues me tol fuel Emin Emax Imin Imax = Ret r /\
    (forall k E, (Imin <= k < Imax)%Z -> Emin < E < Emax -> eigen_index V lo hi l left right k E -> exists E', In (k, E') r /\ Rabs (E' - E) <= eps) /\
    (forall k E', In (k, E') r -> (Imin <= k < Imax)%Z /\ exists E, Emin < E < Emax /\ eigen_index V lo hi l left right k E /\ Rabs (E' - E) <= eps) /\
    StronglySorted (fun a b => (fst a < fst b)%Z) r.
Proof.
  intros V lo hi l vm m sm left right tol eps Emin Emax Imin Imax fuel leaves cuts PC Hm Hsm NL NR Hlt me.
  apply (C66_eigenvalues _ vm l m sm lo hi V left right (Emin - 1) (Emax + 1)); auto; try lra; [apply PC|].
  intros E _. apply (constant_exact_at V lo hi l m sm); auto.
Qed.

(** V = 0 on [0, 1] in two sectors, Dirichlet conditions: pi^2 has index 0, (2 pi)^2 has index 1; the search on
    [pi^2 - 1, pi^2 + 1] meets all the hypotheses and returns exactly (0, pi^2) *)
Definition dirichlet : Y := mkY 0 1 0 0.
Definition E1 : R := (1 * PI) * (1 * PI).
Definition E2 : R := (2 * PI) * (2 * PI).
Notation F0 := (angle_difference (calculateT eta_exact) 0 two_sectors 0 0 1 dirichlet dirichlet).
Notation me0 := (me_of (calculateT eta_exact) 0 two_sectors 0 0 1 dirichlet dirichlet).
Lemma nz_dirichlet : nonzero dirichlet. Proof. right. cbn. lra. Qed.
Lemma index_0 : eigen_index (fun _ => 0) 0 1 two_sectors dirichlet dirichlet 0 E1.
Proof.
  pose proof PIpos as HP. exists (wave 1), (wave' 1), []. pose proof (wave_solution 1 two_sectors ltac:(lra)) as S.
  split; [exact S|]. split.
  { apply (nontrivial_if _ _ _ _ _ _ _ 0 two_sectors_ok S ltac:(lra)). right. unfold wave'. rewrite Rmult_0_r, cos_0. lra. }
  unfold dirichlet. cbn [y0 y1]. split; [unfold wave, wave'; rewrite Rmult_0_r, sin_0; field; lra|]. split; [unfold wave, wave'; replace (1 * PI * 1) with PI by ring; rewrite sin_PI; field; lra|].
  split; [|reflexivity]. split; [constructor|]. intro x. split; [intros []|]. intros [Hx Z]. cbn. unfold wave in Z.
  assert (0 < sin (1 * PI * x)) by (apply sin_gt_0; nra). assert (0 < sin (1 * PI * x) / (1 * PI)) by (apply Rdiv_lt_0_compat; lra). lra.
Qed.
Lemma index_1 : eigen_index (fun _ => 0) 0 1 two_sectors dirichlet dirichlet 1 E2.
Proof.
  pose proof PIpos as HP. exists (wave 2), (wave' 2), [1 / 2]. pose proof (wave_solution 2 two_sectors ltac:(lra)) as S.
  split; [exact S|]. split.
  { apply (nontrivial_if _ _ _ _ _ _ _ 0 two_sectors_ok S ltac:(lra)). right. unfold wave'. rewrite Rmult_0_r, cos_0. lra. }
  unfold dirichlet. cbn [y0 y1]. split; [unfold wave, wave'; rewrite Rmult_0_r, sin_0; field; lra|]. split; [unfold wave, wave'; replace (2 * PI * 1) with (2 * PI) by ring; rewrite sin_2PI; field; lra|].
  split; [|reflexivity]. apply (C64_case true).
Qed.
Lemma values_0 : F0 E1 = 0 /\ (forall E, E < E1 -> -1 < F0 E < 0) /\ (forall E, E1 < E < E2 -> 0 < F0 E < 1).
Proof.
  pose proof PIpos as HP.
  destruct (C65_piecewise_constant (fun _ => 0) 0 1 two_sectors 0 0 (mkSector 0 (1 / 2) Dfwd [0]) dirichlet dirichlet two_sectors_ok eq_refl ltac:(cbn [smax]; lra) nz_dirichlet nz_dirichlet) as (RC & I & _).
  cbv zeta in RC, I. assert (F0 E1 = 0) as Z1 by (apply (proj2 (I 0%Z E1)), index_0). assert (F0 E2 = 1) as Z2 by (apply (proj2 (I 1%Z E2)), index_1).
  split; [exact Z1|]. split.
  - intros E HE. split.
    + apply (difference_lower _ _ two_sectors 0 (mkSector 0 (1 / 2) Dfwd [0]) 0 1 (fun _ => 0)); try apply nz_dirichlet; [apply two_sectors_ok|reflexivity|cbn [smax]; lra|].
      apply (constant_exact_at _ _ _ _ 0); [apply two_sectors_ok|reflexivity].
    + destruct (Rlt_le_dec (F0 E) 0) as [|L]; [assumption|]. pose proof (proj1 (RC E E1) 0%Z E E1 ltac:(lra) HE ltac:(lra) L). lra.
  - intros E HE. split.
    + apply (proj1 (RC E1 E) 0%Z E1 E); lra.
    + destruct (Rlt_le_dec (F0 E) 1) as [|L]; [assumption|]. pose proof (proj1 (RC E E2) 1%Z E E2 ltac:(lra) ltac:(lra) ltac:(lra) L). lra.
Qed.
Lemma E1_E2 : E1 + 1 < E2. Proof. unfold E1, E2. pose proof PI2_1. pose proof PIpos. unfold PI2 in *. nra. Qed.
Example C66_case : forall fuel, (2 ^ 32 <= Z.of_nat fuel)%Z -> exists leaves,
  bisect me0 fuel 0 10 (initial me0 (E1 - 1) (E1 + 1)) = Ret (leaves, []) /\
  (forall lf k E, In lf leaves -> inside lf E -> eigen_index (fun _ => 0) 0 1 two_sectors dirichlet dirichlet k E ->
     exists E', newton me0 0 (lc lf) true = Ret (k, E') /\ Rabs (E' - E) <= 0) /\
  computeEigenvalues me0 0 fuel (E1 - 1) (E1 + 1) 0 10 = Ret [(0%Z, E1)].
Proof.
  intros fuel Hf. destruct values_0 as (Z1 & Zl & Zr). pose proof E1_E2 as H12.
  destruct (C65_piecewise_constant (fun _ => 0) 0 1 two_sectors 0 0 (mkSector 0 (1 / 2) Dfwd [0]) dirichlet dirichlet two_sectors_ok eq_refl ltac:(cbn [smax]; lra) nz_dirichlet nz_dirichlet) as (RC & I & OR).
  cbv zeta in RC, I.
  pose proof (Zl (E1 - 1) ltac:(lra)) as Za. pose proof (Zr (E1 + 1) ltac:(lra)) as Zb.
  assert (exists derr, me0 E1 true = (0, derr, 0)) as [derr ME].
  { pose proof (constant_exact_at (fun _ => 0) 0 1 two_sectors 0 (mkSector 0 (1 / 2) Dfwd [0]) dirichlet dirichlet E1 two_sectors_ok eq_refl) as X.
    destruct index_0 as (z & z' & zs & Sol & Nz & L & R & LZ & EK).
    destruct (parallel (z 0) (z' 0) (y0 dirichlet) (y1 dirichlet) (Nz 0 ltac:(lra)) nz_dirichlet L) as (kl & Hkl & L0 & L1).
    destruct (parallel (z 1) (z' 1) (y0 dirichlet) (y1 dirichlet) (Nz 1 ltac:(lra)) nz_dirichlet R) as (kr & Hkr & R0 & R1).
    destruct (C64_matching (calculateT eta_exact) 0 two_sectors 0 (mkSector 0 (1 / 2) Dfwd [0]) 0 1 (fun _ => 0) E1 z z' true dirichlet dirichlet kl kr (proj1 two_sectors_ok) eq_refl (proj1 X) (proj1 (proj2 X)) Sol Nz Hkl Hkr ltac:(cbn [smax]; lra) L0 L1 R0 R1) as (de & ys & LY & ME).
    exists de. unfold me_of. rewrite ME. pose proof (proj2 (I 0%Z E1) index_0) as Q. unfold eigenvalue_of, angle_difference, M_Search.ang, me_of in Q. rewrite ME in Q. cbn [snd] in Q.
    unfold sdiv, spi, Scalar_R, Conv_R in Q. f_equal. pose proof PIpos. apply (Rmult_eq_reg_r (/ PI)); [|apply Rinv_neq_0_compat; lra]. unfold Rdiv in Q. rewrite Q. ring. }
  assert (newton me0 0 E1 true = Ret (0%Z, E1)) as NW.
  { rewrite (newton_exact me0 0 E1 true derr 0 ltac:(lra) ME). replace (0 / PI) with (IZR 0) by (unfold Rdiv; rewrite Rmult_0_l; reflexivity).
    simpl iround. rewrite round_int. reflexivity. }
  assert (step me0 0 10 (mkItem (E1 - 1) (F0 (E1 - 1)) (E1 + 1) (F0 (E1 + 1)) 0) = Ret (LeafAt E1)) as ST.
  { unfold step. rewrite (ex_ceil (F0 (E1 - 1)) 0) by (lia || lra). rewrite (ex_ceil (F0 (E1 + 1)) 1) by (lia || lra). cbn [bind].
    assert (smul (sofQ (QArith_base.Qmake 1 2)) (sadd (E1 - 1) (E1 + 1)) = E1) as MID by (simpl; field).
    assert (sle (F0 (E1 + 1)) (F0 (E1 - 1)) = false) as -> by (simpl; apply Rleb_false; lra). cbn [orb].
    change (0 =? 1)%Z with false. change (1 <=? 0)%Z with false. change (10 <=? 0)%Z with false. change (0 + 1 <? 1)%Z with false. change (Z.rem 0 2 =? 0)%Z with true. change (3 <? 0)%Z with false. change (30 <? 0)%Z with false.
    cbn [orb]. rewrite orb_true_r, andb_false_r. cbn [orb]. rewrite MID. change (snan (M_Search.ang me0 E1)) with false. cbv iota.
    change (M_Search.ang me0 E1) with (F0 E1). rewrite Z1.
    assert (slt (sabs (ssub 0 (sofZ 0))) (sofQ (QArith_base.Qmake 1 100000000)) = true) as ->; [|reflexivity].
    simpl. apply Rltb_true. rewrite Rminus_0_r, Rabs_R0. lra. }
  assert (forall f, bisect me0 (S f) 0 10 (initial me0 (E1 - 1) (E1 + 1)) = Ret ([mkLeaf (mkItem (E1 - 1) (F0 (E1 - 1)) (E1 + 1) (F0 (E1 + 1)) 0) E1], [])) as BI.
  { intro f. unfold initial. cbn [bisect]. change (M_Search.ang me0) with F0. rewrite ST. cbn [bind]. destruct f; reflexivity. }
  destruct fuel as [|f]; [cbn in Hf; lia|].
  exists [mkLeaf (mkItem (E1 - 1) (F0 (E1 - 1)) (E1 + 1) (F0 (E1 + 1)) 0) E1]. split; [apply BI|]. split.
  - intros lf k E [<-|[]] HE Hk. unfold inside in HE. cbn [lit ia_ ib_] in HE. cbn [lc]. apply I in Hk. unfold eigenvalue_of in Hk. exists E1.
    assert (E = E1) as ->.
    { destruct (Rtotal_order E E1) as [L|[L|L]]; [|exact L|]; exfalso.
      - specialize (Zl E L). rewrite Hk in Zl. destruct Zl as [K1 K2]. apply lt_IZR in K1. apply lt_IZR in K2. lia.
      - specialize (Zr E ltac:(lra)). rewrite Hk in Zr. destruct Zr as [K1 K2]. apply lt_IZR in K1. apply lt_IZR in K2. lia. }
    assert (k = 0%Z) as -> by (apply eq_IZR; lra). split; [exact NW|]. rewrite Rminus_eq_0, Rabs_R0. lra.
  - unfold computeEigenvalues. cbn [Z.ltb Z.compare]. pose proof (BI f) as B. unfold initial in B. rewrite B. cbn [bind fst mapM lc]. rewrite NW. reflexivity.
Qed.
(** the remaining hypotheses of C66 hold as well *)
Example C66_hypotheses : constant_problem (fun _ => 0) 0 1 two_sectors /\ nonzero dirichlet /\
  not_eigenvalue (fun _ => 0) 0 1 two_sectors dirichlet dirichlet (E1 - 1) /\ not_eigenvalue (fun _ => 0) 0 1 two_sectors dirichlet dirichlet (E1 + 1) /\
  eigenvalues_apart (fun _ => 0) 0 1 two_sectors dirichlet dirichlet (E1 - 1) (E1 + 1) ((E1 + 1 - (E1 - 1)) / 2 ^ 31) /\ F0 (E1 + 1) <= 2147483647.
Proof.
  destruct values_0 as (Z1 & Zl & Zr). pose proof E1_E2 as H12.
  destruct (C65_piecewise_constant (fun _ => 0) 0 1 two_sectors 0 0 (mkSector 0 (1 / 2) Dfwd [0]) dirichlet dirichlet two_sectors_ok eq_refl ltac:(cbn [smax]; lra) nz_dirichlet nz_dirichlet) as (RC & I & OR).
  cbv zeta in RC, I.
  assert (forall E k, E1 - 1 <= E <= E1 + 1 -> eigen_index (fun _ => 0) 0 1 two_sectors dirichlet dirichlet k E -> k = 0%Z /\ E = E1) as U.
  { intros E k HE Hk. apply I in Hk. unfold eigenvalue_of in Hk.
    assert (E = E1) as ->.
    { destruct (Rtotal_order E E1) as [L|[L|L]]; [|exact L|]; exfalso.
      - specialize (Zl E L). rewrite Hk in Zl. destruct Zl as [K1 K2]. apply lt_IZR in K1. apply lt_IZR in K2. lia.
      - specialize (Zr E ltac:(lra)). rewrite Hk in Zr. destruct Zr as [K1 K2]. apply lt_IZR in K1. apply lt_IZR in K2. lia. }
    split; [apply eq_IZR; lra|reflexivity]. }
  split; [apply two_sectors_ok|]. split; [apply nz_dirichlet|].
  split; [intros k Hk; destruct (U (E1 - 1) k ltac:(lra) Hk); lra|]. split; [intros k Hk; destruct (U (E1 + 1) k ltac:(lra) Hk); lra|]. split.
  - intros j k a b H1 H2 H3 J K. destruct (U a j ltac:(lra) J). destruct (U b k ltac:(lra) K). lra.
  - pose proof (Zr (E1 + 1) ltac:(lra)). lra.
Qed.

Print Assumptions C65_rises.
Print Assumptions C65_continuous.
Print Assumptions C65_index.
Print Assumptions C65_oscillation.
Print Assumptions C65_piecewise_constant.
Print Assumptions C66_eigenvalues.
Print Assumptions C66_piecewise_constant.
