(** C72: for every problem with exact steps and separated boundary conditions, every index has exactly one eigenvalue, and the query
    by index finds energies that bracket the requested ones. *)
From Coq Require Import String Reals Ranalysis5 ZArith Lra Lia Bool.
From Coquelicot Require Import Coquelicot.
From Coq Require Import List Sorting.Sorted.
From Verif Require Import Base M_Search M_Sectors S_Sectors P_Lookup M_Core S_Core P_Core P_Core2 P_Prufer S_Eta P_Eta S_Formulas M_Formulas P_Terms2 S_Accuracy S_Zeros P_Lift P_Lift2 P_Cross P_Global2 P_Global3 P_Global5 P_Step P_Step2 P_Count P_Count2 P_Constant P_Sturm P_Sturm2 P_Sturm3 T_Core T_Zeros S_Search T_Search T_Sturm P_Hill P_Hill2 P_Hill4 P_Sturm4.
Import ListNotations.
Open Scope R_scope.

Section Problem.
Variable calcT : sec -> R -> R -> bool -> Tm.
Variable vm : R.
Variables (l : list sec) (m : Z) (sm : sec) (lo hi : R) (V : R -> R) (left right : Y).
Hypothesis PT : partition lo hi l.
Hypothesis Hm : vget l m = Ret sm.
Hypothesis Hsm : smax sm < hi.
Hypothesis NL : nonzero left.
Hypothesis NR : nonzero right.
Hypothesis X : forall E, exact_at calcT V lo hi l (smax sm) left right E.
Notation F := (angle_difference calcT vm l m lo hi left right).
Notation index := (eigen_index V lo hi l left right).

Lemma problem_geometry : (forall s, In s l -> smin s < smax s) /\ lo < hi /\ exists M, 0 <= M /\ forall s x, In s l -> smin s < x < smax s -> Rabs (V x) <= M.
Proof using vm PT Hm Hsm NL NR X.
  destruct (at_energy calcT vm l m sm lo hi V _ _ PT Hm Hsm NL NR 0 (X 0)) as (Ho & Hc & _). split; [exact Ho|]. split; [lra|]. apply resolved_bounded. intros s Hs. apply (proj1 (X 0) s Hs).
Qed.
(** below all eigenvalues the angle difference (in units of pi) is between -1 and 0 *)
Theorem C72_low : exists E0, forall E, E <= E0 -> -1 < F E < 0.
Proof using PT Hm Hsm NL NR X.
  destruct problem_geometry as (Ho & Hlh & M & HM & B). destruct (difference_turn calcT vm l m sm lo hi V left right PT Hm Hsm NL NR) as (al & be & Hal & Hbe & T).
  destruct (turned_to_zero l lo hi PT Ho Hlh V M B al be Hal Hbe) as (E0 & H0). exists E0. intros E HE.
  split; [apply (difference_lower calcT vm l m sm lo hi V left right E PT Hm Hsm NL NR (X E))|].
  destruct (T E (X E)) as (b & Tb & G & _). specialize (H0 E b HE Tb). destruct (Rlt_le_dec (F E) 0) as [|C]; [assumption|]. apply (G 0%Z) in C. lra.
Qed.
(** towards high energies it passes every number *)
Theorem C72_high : forall N : Z, exists E0, forall E, E0 <= E -> IZR N < F E.
Proof using PT Hm Hsm NL NR X.
  intro N. pose proof PIpos as HP. destruct problem_geometry as (Ho & Hlh & M & HM & B). destruct (difference_turn calcT vm l m sm lo hi V left right PT Hm Hsm NL NR) as (al & be & Hal & Hbe & T).
  set (k := S (S (Z.to_nat N))). set (w := INR k * PI / (hi - lo)). exists (M + w * w + 1). intros E HE.
  destruct (T E (X E)) as (b & Tb & _ & G). apply G.
  assert (forall t x, In t l -> smin t < x < smax t -> V x + w * w < E) as BB. { intros t x Ht Hx. pose proof (B t x Ht Hx) as Q. apply Rabs_le_between in Q. lra. }
  pose proof (turned_more l lo hi PT Ho Hlh V k _ _ E ltac:(unfold k; lia) BB Tb) as L.
  assert (IZR N + 1 <= INR k) as LN. { rewrite INR_IZR_INZ, <- plus_IZR. apply IZR_le. unfold k. lia. }
  assert ((IZR N + 1) * PI <= INR k * PI) as LP by (apply Rmult_le_compat_r; lra). lra.
Qed.
(** every index k >= 0 belongs to exactly one eigenvalue *)
Theorem C72_exists_unique : forall k, (0 <= k)%Z -> exists E, index k E /\ forall E', index k E' -> E' = E.
Proof using vm calcT m sm PT Hm Hsm NL NR X.
  intros k Hk. destruct C72_low as [EL HL]. destruct (C72_high k) as [EH HH].
  pose (a := Rmin EL EH). assert (a <= EH) as Hab by apply Rmin_r. specialize (HL a (Rmin_l _ _)). specialize (HH EH (Rle_refl _)).
  assert (continuous_on F a EH) as C by (apply (C65_continuous calcT vm l m sm lo hi V left right (a - 1) (EH + 1) PT Hm Hsm NL NR); auto; lra).
  assert (0 <= IZR k) as Hk0 by (apply (IZR_le 0); lia).
  assert (a < EH) as Hlt. { destruct Hab as [|Q]; [assumption|]. rewrite Q in HL. lra. }
  destruct (IVT_interv (fun E => F E - IZR k) a EH) as (E & HE & Z0); try lra.
  { intros E HE. apply continuity_pt_minus; [apply C, HE|apply continuity_pt_const; intros ? ?; reflexivity]. }
  assert (forall E, F E = IZR k <-> index k E) as I by (intro E'; apply (C65_index calcT vm l m sm lo hi V left right E' k PT Hm Hsm NL NR (X E'))).
  exists E. split; [apply I; lra|]. intros E' HE'. apply I in HE'.
  assert (forall x y, x < y -> F x = IZR k -> F y = IZR k -> False) as U.
  { intros x y L Fx Fy. pose proof (C65_rises calcT vm l m sm lo hi V left right x y PT Hm Hsm NL NR (fun E _ => X E) k x y (Rle_refl _) L (Rle_refl _) ltac:(lra)) as Q. fold (F y) in Q. lra. }
  destruct (Rtotal_order E' E) as [L|[L|L]]; [exfalso; apply (U E' E); lra|exact L|exfalso; apply (U E E'); lra].
Qed.
(** the energies found before the bisection: the search for them ends, and together they bracket the eigenvalues of all requested
    indices; Q is any energy (at least 1) with Imax eigenvalues below it, 2 Q must not have 2^31 *)
Theorem C72_bracket : forall Imin Imax Q, (0 <= Imin)%Z -> 1 <= Q -> IZR Imax <= F Q -> F (2 * Q) <= 2147483647 ->
  exists n Emin Emax, (forall fuel, (n < fuel)%nat -> bracket (me_of calcT vm l m lo hi left right) fuel Imin Imax = Ret (Emin, Emax)) /\
    Emin < Emax /\ (forall k E, (Imin <= k < Imax)%Z -> index k E -> Emin <= E < Emax) /\ -1 < F Emin /\ F Emax <= 2147483647.
Proof using PT Hm Hsm NL NR X.
  intros Imin Imax Q Hi HQ1 HQ2 HQ3. pose proof (fun x y => C65_rises calcT vm l m sm lo hi V left right x y PT Hm Hsm NL NR (fun E _ => X E)) as Rs.
  destruct C72_low as [EL HL]. assert (0 <= IZR Imin) as Hi0 by (apply (IZR_le 0); lia).
  assert (forall x, -1 < F x) as Lw by (intro x; apply (difference_lower calcT vm l m sm lo hi V left right x PT Hm Hsm NL NR (X x))).
  assert (forall x, x <= 2 * Q -> F x <= 2147483647) as Up.
  { intros x [L| ->]; [|exact HQ3]. destruct (Rle_lt_dec (F x) 2147483647) as [|C]; [assumption|]. pose proof (Rs x (2 * Q) 2147483647%Z x (2 * Q) (Rle_refl _) L (Rle_refl _) ltac:(left; exact C)). lra. }
  destruct (C30_bracket_limits (me_of calcT vm l m lo hi left right) Imin Imax Q (Rmax 1 (- EL))) as (n & Emin & Emax & B1 & B2 & B2' & B3 & B4).
  - split; [exact HQ1|]. intros x [L| <-]; [|exact HQ2]. left. apply (Rs Q x Imax Q x (Rle_refl _) L (Rle_refl _) HQ2).
  - split; [apply Rmax_l|]. intros x Hx. pose proof (Rmax_r 1 (- EL)). left. apply Rlt_le_trans with 0; [apply (HL x); lra|exact Hi0].
  - intros x [_ Hx]. specialize (Up x Hx). specialize (Lw x). unfold angle_difference in *. lra.
  - exists n, Emin, Emax. split; [exact B1|]. split; [exact B2|]. fold (F Emin) in B3. fold (F Emax) in B4. split; [|split; [apply Lw|]].
    + intros k E Hk HE. apply (C65_index calcT vm l m sm lo hi V left right E k PT Hm Hsm NL NR (X E)) in HE. unfold eigenvalue_of in HE. destruct Hk as [Hk1 Hk2]. apply IZR_le in Hk1. apply IZR_lt in Hk2. split.
      * destruct (Rle_lt_dec Emin E) as [|L]; [assumption|exfalso]. pose proof (Rs E Emin k E Emin (Rle_refl _) L (Rle_refl _) ltac:(lra)). lra.
      * destruct (Rlt_le_dec E Emax) as [|[L|L]]; [assumption|exfalso|exfalso].
        { pose proof (Rs Emax E Imax Emax E (Rle_refl _) L (Rle_refl _) B4). lra. }
        { subst E. lra. }
    + apply Up. lra.
Qed.
(** the whole query by index: one entry for each requested index, the energy within eps of the eigenvalue with that many zeros *)
Theorem C72_by_index : forall Imin Imax Q tol eps, (0 <= Imin <= Imax)%Z -> 1 <= Q -> IZR Imax <= F Q -> F (2 * Q) <= 2147483647 ->
  let me := me_of calcT vm l m lo hi left right in
  exists n Emin Emax, forall fuel leaves cuts, (n < fuel)%nat -> (2 ^ 32 <= Z.of_nat fuel)%Z ->
    not_eigenvalue V lo hi l left right Emin -> not_eigenvalue V lo hi l left right Emax -> eigenvalues_apart V lo hi l left right Emin Emax ((Emax - Emin) / 2 ^ 31) ->
    bisect me fuel Imin Imax (initial me Emin Emax) = Ret (leaves, cuts) -> Forall (not_eigenvalue V lo hi l left right) cuts ->
    (forall lf k E, In lf leaves -> inside lf E -> index k E -> exists E', newton me tol (lc lf) true = Ret (k, E') /\ Rabs (E' - E) <= eps) ->
    exists r, eigenvaluesByIndex me tol fuel Imin Imax = Ret r /\
      (forall k, (Imin <= k < Imax)%Z -> exists E E', index k E /\ In (k, E') r /\ Rabs (E' - E) <= eps) /\
      (forall k E', In (k, E') r -> (Imin <= k < Imax)%Z /\ exists E, index k E /\ Rabs (E' - E) <= eps) /\
      StronglySorted (fun a b => (fst a < fst b)%Z) r.
Proof using PT Hm Hsm NL NR X.
  intros Imin Imax Q tol eps HII HQ1 HQ2 HQ3 me. destruct (C72_bracket Imin Imax Q (proj1 HII) HQ1 HQ2 HQ3) as (n & Emin & Emax & B1 & B2 & B3 & _ & B5).
  exists n, Emin, Emax. intros fuel leaves cuts Hn Hf N1 N2 HA Hb Hc HN.
  destruct (C66_eigenvalues calcT vm l m sm lo hi V left right (Emin - 1) (Emax + 1) tol eps Emin Emax Imin Imax fuel leaves cuts PT Hm Hsm NL NR (fun E _ => X E) ltac:(lra) B2 ltac:(lra) N1 N2 HA B5 Hf HII Hb Hc HN) as (r & Er & R1 & R2 & R3).
  exists r. split; [unfold eigenvaluesByIndex; unfold me; rewrite B1 by exact Hn; exact Er|]. split; [|split; [|exact R3]].
  - intros k Hk. destruct (C72_exists_unique k ltac:(lia)) as (E & HE & _). destruct (B3 k E Hk HE) as [[L|L] L2].
    + destruct (R1 k E Hk ltac:(lra) HE) as (E' & I1 & I2). exists E, E'. auto.
    + exfalso. rewrite <- L in HE. apply (N1 k HE).
  - intros k E' Hi. destruct (R2 k E' Hi) as (Hk & E & _ & HE & HD). split; [exact Hk|]. exists E. auto.
Qed.
End Problem.

(** piecewise constant potentials: no assumption on the step matrices *)
Theorem C72_piecewise_constant : forall V lo hi l vm m sm left right, constant_problem V lo hi l -> vget l m = Ret sm -> smax sm < hi -> nonzero left -> nonzero right ->
  let F := angle_difference (calculateT eta_exact) vm l m lo hi left right in
  (forall k, (0 <= k)%Z -> exists E, eigen_index V lo hi l left right k E /\ forall E', eigen_index V lo hi l left right k E' -> E' = E) /\
  (forall N : Z, exists E0, forall E, E0 <= E -> IZR N < F E) /\
  (forall Imin Imax Q, (0 <= Imin)%Z -> 1 <= Q -> IZR Imax <= F Q -> F (2 * Q) <= 2147483647 ->
    exists n Emin Emax, (forall fuel, (n < fuel)%nat -> bracket (me_of (calculateT eta_exact) vm l m lo hi left right) fuel Imin Imax = Ret (Emin, Emax)) /\
      Emin < Emax /\ (forall k E, (Imin <= k < Imax)%Z -> eigen_index V lo hi l left right k E -> Emin <= E < Emax) /\ -1 < F Emin /\ F Emax <= 2147483647).
Proof.
  intros V lo hi l vm m sm left right PC Hm Hsm NL NR F. pose proof PC as [PT _]. pose proof (fun E => constant_exact_at V lo hi l m sm left right E PC Hm) as X.
  split; [apply (C72_exists_unique (calculateT eta_exact) vm l m sm lo hi V left right PT Hm Hsm NL NR X)|].
  split; [apply (C72_high (calculateT eta_exact) vm l m sm lo hi V left right PT Hm Hsm NL NR X)|apply (C72_bracket (calculateT eta_exact) vm l m sm lo hi V left right PT Hm Hsm NL NR X)].
Qed.
(** the free particle with Dirichlet conditions: (k pi)^2 has index k - 1; the query for the first eigenvalue brackets pi^2 *)
Lemma dirichlet_index : forall k, (1 <= k)%nat -> eigen_index (fun _ => 0) 0 1 two_sectors dirichlet dirichlet (Z.of_nat k - 1) ((INR k * PI) * (INR k * PI)).
Proof.
  intros k Hk. pose proof PIpos as HP. assert (1 <= INR k) as Hk1 by (apply (le_INR 1); lia).
  exists (wave (INR k)), (wave' (INR k)), (map (fun i => INR i / INR k) (seq 1 (k - 1))). pose proof (wave_solution (INR k) two_sectors ltac:(lra)) as S.
  split; [exact S|]. split.
  { apply (nontrivial_if _ _ _ _ _ _ _ 0 two_sectors_ok S ltac:(lra)). right. unfold wave'. rewrite Rmult_0_r, cos_0. lra. }
  unfold dirichlet. cbn [y0 y1]. split; [unfold wave, wave'; rewrite Rmult_0_r, sin_0; field; lra|].
  split; [unfold wave, wave'; replace (INR k * PI * 1) with (INR k * PI) by ring; rewrite (sin_eq_0_1 (INR k * PI)); [unfold Rdiv; ring|exists (Z.of_nat k); rewrite <- INR_IZR_INZ; reflexivity]|].
  split; [|rewrite map_length, seq_length; lia]. split.
  - apply FinFun.Injective_map_NoDup; [|apply seq_NoDup]. intros i j Hij. apply INR_eq. apply (Rmult_eq_reg_r (/ INR k)); [exact Hij|apply Rinv_neq_0_compat; lra].
  - intro x. rewrite in_map_iff. split.
    + intros (i & <- & Hi). apply in_seq in Hi. assert (1 <= INR i) by (apply (le_INR 1); lia). assert (INR i < INR k) by (apply lt_INR; lia). split.
      * split; [apply Rdiv_lt_0_compat; lra|]. apply (Rmult_lt_reg_r (INR k)); [lra|]. unfold Rdiv. rewrite Rmult_assoc, Rinv_l; lra.
      * unfold wave. replace (INR k * PI * (INR i / INR k)) with (IZR (Z.of_nat i) * PI) by (rewrite <- INR_IZR_INZ; field; lra). rewrite sin_eq_0_1; [unfold Rdiv; ring|]. exists (Z.of_nat i). reflexivity.
    + intros [Hx Z]. unfold wave in Z. assert (sin (INR k * PI * x) = 0) as S0. { apply (Rmult_eq_reg_r (/ (INR k * PI))); [rewrite Rmult_0_l; exact Z|apply Rinv_neq_0_compat; apply Rgt_not_eq; apply Rmult_lt_0_compat; lra]. }
      apply sin_eq_0_0 in S0 as [z Ez]. assert (INR k * x = IZR z) as E3 by (apply (Rmult_eq_reg_r PI); lra).
      assert (0 < IZR z) as K1 by (rewrite <- E3; apply Rmult_lt_0_compat; lra). assert (IZR z < INR k) as K2. { rewrite <- E3. rewrite <- (Rmult_1_r (INR k)) at 2. apply Rmult_lt_compat_l; lra. } rewrite INR_IZR_INZ in K2. apply lt_IZR in K1. apply lt_IZR in K2.
      exists (Z.to_nat z). split; [|apply in_seq; lia]. rewrite INR_IZR_INZ, Z2Nat.id by lia. rewrite <- E3. field. lra.
Qed.
Example C72_case : exists n Emin Emax, (forall fuel, (n < fuel)%nat -> bracket (me_of (calculateT eta_exact) 0 two_sectors 0 0 1 dirichlet dirichlet) fuel 0 1 = Ret (Emin, Emax)) /\ Emin <= PI * PI < Emax.
Proof.
  pose proof PIpos as HP. pose proof PI2_3_2 as P3.
  assert (vget two_sectors 0 = Ret (mkSector 0 (1 / 2) Dfwd [0])) as Hm by reflexivity. assert (smax (mkSector 0 (1 / 2) Dfwd [0]) < 1) as Hsm by (cbn; lra).
  destruct (C65_piecewise_constant (fun _ => 0) 0 1 two_sectors 0 0 _ dirichlet dirichlet two_sectors_ok Hm Hsm nz_dirichlet nz_dirichlet) as (Rs & Ix & _). cbv zeta in Rs, Ix.
  pose proof (proj2 (Ix _ _) (dirichlet_index 2 ltac:(lia))) as F2. pose proof (proj2 (Ix _ _) (dirichlet_index 3 ltac:(lia))) as F3. pose proof (dirichlet_index 1 ltac:(lia)) as I1. unfold eigenvalue_of in F2, F3.
  change (Z.of_nat 1 - 1)%Z with 0%Z in I1. change (Z.of_nat 2 - 1)%Z with 1%Z in F2. change (Z.of_nat 3 - 1)%Z with 2%Z in F3. change (INR 1) with 1 in I1. change (INR 2) with (1 + 1) in F2. change (INR 3) with (1 + 1 + 1) in F3.
  set (Q := (1 + 1) * PI * ((1 + 1) * PI)) in *. assert (1 <= Q) as HQ by (unfold Q; nra). assert (2 * Q < (1 + 1 + 1) * PI * ((1 + 1 + 1) * PI)) as L by (unfold Q; nra).
  destruct (C72_piecewise_constant (fun _ => 0) 0 1 two_sectors 0 0 _ dirichlet dirichlet two_sectors_ok Hm Hsm nz_dirichlet nz_dirichlet) as (_ & _ & B).
  destruct (B 0%Z 1%Z Q ltac:(lia) HQ ltac:(lra)) as (n & Emin & Emax & B1 & B2 & B3 & _).
  - destruct (Rle_lt_dec (angle_difference (calculateT eta_exact) 0 two_sectors 0 0 1 dirichlet dirichlet (2 * Q)) 2) as [|C]; [lra|].
    pose proof (proj1 (Rs (2 * Q) ((1 + 1 + 1) * PI * ((1 + 1 + 1) * PI))) 2%Z _ _ (Rle_refl _) L (Rle_refl _) ltac:(lra)). lra.
  - exists n, Emin, Emax. split; [exact B1|]. replace (PI * PI) with (1 * PI * (1 * PI)) by ring. apply (B3 0%Z); [lia|exact I1].
Qed.
Print Assumptions C72_low.
Print Assumptions C72_high.
Print Assumptions C72_exists_unique.
Print Assumptions C72_bracket.
Print Assumptions C72_by_index.
Print Assumptions C72_piecewise_constant.
