(** C75: eigenvalues depend monotonically and 1-Lipschitz on the potential; bounds for the eigenvalue with index k; what these give for
    the answers of the code. *)
From Coq Require Import String Reals ZArith Lra Lia Bool Sorted.
From Coquelicot Require Import Coquelicot.
From Coq Require Import List.
From Verif Require Import Base M_Search M_Sectors S_Sectors P_Lookup M_Core S_Core P_Core P_Prufer S_Eta S_Formulas M_Formulas S_Accuracy S_Zeros P_Lift P_Lift2 P_Cross P_Global5 P_Step P_Count P_Count2 P_Sturm P_Sturm2 P_Sturm3 P_Sturm4 T_Zeros S_Search T_Search T_Sturm P_Hill P_Hill2 P_Hill4 T_Bracket P_Weyl T_Hill2.
Import ListNotations.
Open Scope R_scope.

Section Compare.
Variables (l : list sec) (lo hi : R) (left right : Y).
Hypothesis PT : partition lo hi l.
Hypothesis Ho : forall s, In s l -> smin s < smax s.
Hypothesis NL : nonzero left.
Hypothesis NR : nonzero right.
Notation index V := (eigen_index V lo hi l left right).

Lemma interval_pos : lo < hi.
Proof using PT Ho.
  assert (forall k : list sec, k <> [] -> exists s, In s k) as G by (intros [|s r] H; [contradiction|exists s; left; reflexivity]).
  destruct (G l (proj1 PT)) as [s Hs]. destruct (order_in l lo hi PT Ho) as [_ O]. specialize (O s Hs). specialize (Ho s Hs). lra.
Qed.

(** a larger potential has larger eigenvalues, index by index *)
Theorem C75_monotone : forall V1 V2 k E1 E2, (forall s x, In s l -> smin s < x < smax s -> V1 x <= V2 x) -> index V1 k E1 -> index V2 k E2 -> E1 <= E2.
Proof using PT Ho NL NR.
  intros V1 V2 k E1 E2 HV H1 H2. pose proof interval_pos as Hlh. destruct (direction left NL) as (al & _ & (Hal & Qal) & _). destruct (direction right NR) as (_ & be & _ & (Hbe & Qbe)).
  pose proof (index_turned l lo hi V1 PT Ho Hlh left right al be NL NR Hal Qal Hbe Qbe k E1 H1) as T1.
  pose proof (index_turned l lo hi V2 PT Ho Hlh left right al be NL NR Hal Qal Hbe Qbe k E2 H2) as T2.
  destruct (Rle_lt_dec E1 E2) as [|C]; [assumption|].
  pose proof (turned_compare l lo hi PT Ho Hlh V2 V1 E2 E1 al _ _ ltac:(intros t x Ht Hx; specialize (HV t x Ht Hx); lra) T2 T1). lra.
Qed.
(** two potentials that differ by at most delta have eigenvalues that differ by at most delta *)
Theorem C75_perturbation : forall V1 V2 delta k E1 E2, (forall s x, In s l -> smin s < x < smax s -> Rabs (V1 x - V2 x) <= delta) -> index V1 k E1 -> index V2 k E2 ->
  Rabs (E1 - E2) <= delta.
Proof using PT Ho NL NR.
  intros V1 V2 delta k E1 E2 HV H1 H2. pose proof interval_pos as Hlh. destruct (direction left NL) as (al & _ & (Hal & Qal) & _). destruct (direction right NR) as (_ & be & _ & (Hbe & Qbe)).
  pose proof (index_turned l lo hi V1 PT Ho Hlh left right al be NL NR Hal Qal Hbe Qbe k E1 H1) as T1.
  pose proof (index_turned l lo hi V2 PT Ho Hlh left right al be NL NR Hal Qal Hbe Qbe k E2 H2) as T2.
  apply Rabs_le. split.
  - destruct (Rle_lt_dec (- delta) (E1 - E2)) as [|C]; [assumption|].
    pose proof (turned_compare l lo hi PT Ho Hlh V1 V2 E1 E2 al _ _ ltac:(intros t x Ht Hx; specialize (HV t x Ht Hx); apply Rabs_le_between in HV; lra) T1 T2). lra.
  - destruct (Rle_lt_dec (E1 - E2) delta) as [|C]; [assumption|].
    pose proof (turned_compare l lo hi PT Ho Hlh V2 V1 E2 E1 al _ _ ltac:(intros t x Ht Hx; specialize (HV t x Ht Hx); apply Rabs_le_between in HV; lra) T2 T1). lra.
Qed.

Variables (V : R -> R) (vlo vhi : R).
Hypothesis HV : forall s x, In s l -> smin s < x < smax s -> vlo <= V x <= vhi.
Definition level (n : Z) : R := (IZR n * PI / (hi - lo)) * (IZR n * PI / (hi - lo)).
Lemma level_nat : forall n, (0 <= n)%Z -> level n = (INR (Z.to_nat n) * PI / (hi - lo)) * (INR (Z.to_nat n) * PI / (hi - lo)).
Proof using. clear. intros n Hn. unfold level. rewrite INR_IZR_INZ, Z2Nat.id by exact Hn. reflexivity. Qed.
(** where the eigenvalue with index k lies, whatever the boundary conditions *)
Theorem C75_bounds : forall k E, index V k E -> (0 <= k)%Z /\ E <= vhi + level (k + 1) /\ ((2 <= k)%Z -> vlo + level (k - 1) <= E).
Proof using PT Ho NL NR HV.
  intros k E H. pose proof interval_pos as Hlh. pose proof PIpos as HP. destruct (direction left NL) as (al & _ & (Hal & Qal) & _). destruct (direction right NR) as (_ & be & _ & (Hbe & Qbe)).
  pose proof (index_turned l lo hi V PT Ho Hlh left right al be NL NR Hal Qal Hbe Qbe k E H) as T.
  assert (0 <= k)%Z as Hk by (destruct H as (z & z' & zs & _ & _ & _ & _ & _ & ->); lia). split; [exact Hk|]. split.
  - destruct (Rle_lt_dec E (vhi + level (k + 1))) as [|C]; [assumption|]. rewrite level_nat in C by lia.
    pose proof (turned_more l lo hi PT Ho Hlh V (Z.to_nat (k + 1)) _ _ E ltac:(lia) ltac:(intros t x Ht Hx; specialize (HV t x Ht Hx); lra) T) as Q.
    rewrite INR_IZR_INZ, Z2Nat.id, plus_IZR in Q by lia. lra.
  - intro K2. destruct (Rle_lt_dec (vlo + level (k - 1)) E) as [|C]; [assumption|]. rewrite level_nat in C by lia.
    pose proof (turned_less l lo hi PT Ho Hlh V (Z.to_nat (k - 1)) _ _ E ltac:(lia) ltac:(intros t x Ht Hx; specialize (HV t x Ht Hx); lra) T) as Q.
    rewrite INR_IZR_INZ, Z2Nat.id, minus_IZR in Q by lia. lra.
Qed.
(** Dirichlet conditions at both ends *)
Theorem C75_dirichlet : forall k E, y0 left = 0 -> y0 right = 0 -> index V k E -> vlo + level (k + 1) <= E <= vhi + level (k + 1).
Proof using PT Ho NL NR HV.
  intros k E L0 R0 H. pose proof interval_pos as Hlh. pose proof PIpos as HP.
  pose proof (index_turned l lo hi V PT Ho Hlh left right 0 PI NL NR ltac:(lra) ltac:(rewrite L0, sin_0; ring) ltac:(lra) ltac:(rewrite R0, sin_PI; ring) k E H) as T.
  assert (0 <= k)%Z as Hk by (destruct H as (z & z' & zs & _ & _ & _ & _ & _ & ->); lia). rewrite level_nat by lia. split.
  - set (g := (INR _ * _ / _ * _)). destruct (Rle_lt_dec (vlo + g) E) as [|C]; [assumption|]. unfold g in C.
    pose proof (turned_less l lo hi PT Ho Hlh V (Z.to_nat (k + 1)) _ _ E ltac:(lia) ltac:(intros t x Ht Hx; specialize (HV t x Ht Hx); lra) T) as Q.
    rewrite INR_IZR_INZ, Z2Nat.id, plus_IZR in Q by lia. lra.
  - set (g := (INR _ * _ / _ * _)). destruct (Rle_lt_dec E (vhi + g)) as [|C]; [assumption|]. unfold g in C.
    pose proof (turned_more l lo hi PT Ho Hlh V (Z.to_nat (k + 1)) _ _ E ltac:(lia) ltac:(intros t x Ht Hx; specialize (HV t x Ht Hx); lra) T) as Q.
    rewrite INR_IZR_INZ, Z2Nat.id, plus_IZR in Q by lia. lra.
Qed.
(** Neumann conditions at both ends *)
Lemma turned_flat : turned (fun _ => 0) l lo hi 0 (PI / 2) (PI / 2).
Proof using PT Ho.
  pose proof interval_pos as Hlh. exists (fun _ => 1), (fun _ => 0), (fun _ => PI / 2). split; [split|split; [|split; [|split; reflexivity]]].
  - intros x _. split; apply continuous_const.
  - intros s x _ _. split; [apply (is_derive_const (V := R_NormedModule) 1)|]. replace ((0 - 0) * 1) with 0 by ring. apply (is_derive_const (V := R_NormedModule) 0).
  - intros x _. left. lra.
  - split; [intro x; apply continuous_const|]. intros x _. cbv beta. rewrite cos_PI2, sin_PI2. ring.
Qed.
Theorem C75_neumann : forall k E, y1 left = 0 -> y1 right = 0 -> index V k E -> vlo + level k <= E <= vhi + level k.
Proof using PT Ho NL NR HV.
  intros k E L0 R0 H. pose proof interval_pos as Hlh. pose proof PIpos as HP.
  pose proof (index_turned l lo hi V PT Ho Hlh left right (PI / 2) (PI / 2) NL NR ltac:(lra) ltac:(rewrite L0, cos_PI2; ring) ltac:(lra) ltac:(rewrite R0, cos_PI2; ring) k E H) as T.
  assert (0 <= k)%Z as Hk by (destruct H as (z & z' & zs & _ & _ & _ & _ & _ & ->); lia). destruct (Z.eq_dec k 0) as [->|Nk].
  - rewrite Rmult_0_l, Rplus_0_r in T. pose proof turned_flat as TF. replace (level 0) with 0 by (unfold level; unfold Rdiv; ring). split.
    + destruct (Rle_lt_dec (vlo + 0) E) as [|C]; [assumption|]. pose proof (turned_compare l lo hi PT Ho Hlh V (fun _ => 0) E 0 _ _ _ ltac:(intros t x Ht Hx; specialize (HV t x Ht Hx); lra) T TF). lra.
    + destruct (Rle_lt_dec E (vhi + 0)) as [|C]; [assumption|]. pose proof (turned_compare l lo hi PT Ho Hlh (fun _ => 0) V 0 E _ _ _ ltac:(intros t x Ht Hx; specialize (HV t x Ht Hx); lra) TF T). lra.
  - rewrite level_nat by lia. split.
    + set (g := (INR _ * _ / _ * _)). destruct (Rle_lt_dec (vlo + g) E) as [|C]; [assumption|]. unfold g in C.
      pose proof (turned_less l lo hi PT Ho Hlh V (Z.to_nat k) _ _ E ltac:(lia) ltac:(intros t x Ht Hx; specialize (HV t x Ht Hx); lra) T) as Q.
      rewrite INR_IZR_INZ, Z2Nat.id in Q by lia. lra.
    + set (g := (INR _ * _ / _ * _)). destruct (Rle_lt_dec E (vhi + g)) as [|C]; [assumption|]. unfold g in C.
      pose proof (turned_more l lo hi PT Ho Hlh V (Z.to_nat k) _ _ E ltac:(lia) ltac:(intros t x Ht Hx; specialize (HV t x Ht Hx); lra) T) as Q.
      rewrite INR_IZR_INZ, Z2Nat.id in Q by lia. lra.
Qed.
End Compare.

Section Answers.
Variable calcT : sec -> R -> R -> bool -> Tm.
Variable vm : R.
Variables (l : list sec) (m : Z) (sm : sec) (lo hi : R) (V : R -> R) (left right : Y) (M : R).
Hypothesis PT : partition lo hi l.
Hypothesis Hm : vget l m = Ret sm.
Hypothesis Hsm : smax sm < hi.
Hypothesis NL : nonzero left.
Hypothesis NR : nonzero right.
Hypothesis X : forall E, exact_at calcT V lo hi l (smax sm) left right E.
Hypothesis HM : 0 <= M.
Hypothesis B : forall s x, In s l -> smin s < x < smax s -> Rabs (V x) <= M.
Notation me := (me_of calcT vm l m lo hi left right).
Notation F := (angle_difference calcT vm l m lo hi left right).
Notation index := (eigen_index V lo hi l left right).
Notation lev := (level lo hi).

Lemma order_of : forall s, In s l -> smin s < smax s.
Proof using vm PT Hm Hsm NL NR X. apply (problem_geometry calcT vm l m sm lo hi V left right PT Hm Hsm NL NR X). Qed.
(** the angle difference passes N below M + level (N + 1), and stays below N + 1 up to level N - M *)
Lemma count_above : forall N E, (0 <= N)%Z -> M + lev (N + 1) < E -> IZR N < F E.
Proof using PT Hm Hsm NL NR X B.
  intros N E HN HE. pose proof order_of as Ho. pose proof (interval_pos l lo hi PT Ho) as Hlh. pose proof PIpos as HP.
  destruct (difference_turn calcT vm l m sm lo hi V left right PT Hm Hsm NL NR) as (al & be & Hal & Hbe & T). destruct (T E (X E)) as (b & Tb & _ & G). apply G.
  rewrite level_nat in HE by lia.
  pose proof (turned_more l lo hi PT Ho Hlh V (Z.to_nat (N + 1)) _ _ E ltac:(lia) ltac:(intros t x Ht Hx; specialize (B t x Ht Hx); apply Rabs_le_between in B; lra) Tb) as Q.
  rewrite INR_IZR_INZ, Z2Nat.id, plus_IZR in Q by lia. lra.
Qed.
Lemma count_below : forall N E, (1 <= N)%Z -> E < lev N - M -> F E <= IZR N + 1.
Proof using PT Hm Hsm NL NR X B.
  intros N E HN HE. pose proof order_of as Ho. pose proof (interval_pos l lo hi PT Ho) as Hlh. pose proof PIpos as HP.
  destruct (difference_turn calcT vm l m sm lo hi V left right PT Hm Hsm NL NR) as (al & be & Hal & Hbe & T). destruct (T E (X E)) as (b & Tb & _ & G).
  rewrite level_nat in HE by lia.
  pose proof (turned_less l lo hi PT Ho Hlh V (Z.to_nat N) _ _ E ltac:(lia) ltac:(intros t x Ht Hx; specialize (B t x Ht Hx); apply Rabs_le_between in B; lra) Tb) as Q.
  rewrite INR_IZR_INZ, Z2Nat.id in Q by lia. destruct (Rle_lt_dec (F E) (IZR N + 1)) as [|C]; [assumption|]. rewrite <- plus_IZR in C. apply G in C. rewrite plus_IZR in C. lra.
Qed.

(** the doubling searches end, with energies that bracket the requested eigenvalues; the only condition is that 2^31 oscillations are more
    than twice the highest requested energy needs (int overflow) *)
Theorem C75_bracket : forall Imin Imax, (0 <= Imin <= Imax)%Z -> 2 * (1 + M + lev (Imax + 1)) + M < lev 2147483646 ->
  exists n Emin Emax, (forall fuel, (n < fuel)%nat -> bracket me fuel Imin Imax = Ret (Emin, Emax)) /\
    Emin < Emax /\ (forall k E, (Imin <= k < Imax)%Z -> index k E -> Emin <= E < Emax) /\ -1 < F Emin /\ F Emax <= 2147483647.
Proof using PT Hm Hsm NL NR X HM B.
  intros Imin Imax HI HL. set (Q := 1 + M + lev (Imax + 1)) in *. assert (0 <= lev (Imax + 1)) as L0 by (unfold level; apply Rle_0_sqr).
  apply (C72_bracket calcT vm l m sm lo hi V left right PT Hm Hsm NL NR X Imin Imax Q); [lia|unfold Q; lra| |].
  - left. apply count_above; [lia|unfold Q; lra].
  - apply Rle_trans with (1 := count_below 2147483646 (2 * Q) ltac:(lia) ltac:(lra)). lra.
Qed.
(** the query by index, for a potential W that the sectors represent up to delta (by V, for which the steps are exact): one answer per index,
    within eps + delta of the eigenvalue of W with this index (eps: Newton's error) *)
Theorem C75_by_index : forall W delta Imin Imax tol eps, (0 <= Imin <= Imax)%Z -> 2 * (1 + M + lev (Imax + 1)) + M < lev 2147483646 ->
  (forall s x, In s l -> smin s < x < smax s -> Rabs (V x - W x) <= delta) ->
  exists n Emin Emax, forall fuel leaves cuts, (n < fuel)%nat -> (2 ^ 32 <= Z.of_nat fuel)%Z ->
    not_eigenvalue V lo hi l left right Emin -> not_eigenvalue V lo hi l left right Emax -> eigenvalues_apart V lo hi l left right Emin Emax ((Emax - Emin) / 2 ^ 31) ->
    bisect me fuel Imin Imax (initial me Emin Emax) = Ret (leaves, cuts) -> Forall (not_eigenvalue V lo hi l left right) cuts ->
    (forall lf k E, In lf leaves -> T_Search.inside lf E -> index k E -> exists E', newton me tol (lc lf) true = Ret (k, E') /\ Rabs (E' - E) <= eps) ->
    exists r, eigenvaluesByIndex me tol fuel Imin Imax = Ret r /\ (forall k, (Imin <= k < Imax)%Z -> exists E', In (k, E') r) /\
      (forall k E' Ew, In (k, E') r -> eigen_index W lo hi l left right k Ew -> (Imin <= k < Imax)%Z /\ Rabs (E' - Ew) <= eps + delta) /\
      StronglySorted (fun a b => (fst a < fst b)%Z) r.
Proof using PT Hm Hsm NL NR X HM B.
  intros W delta Imin Imax tol eps HI HL HW. set (Q := 1 + M + lev (Imax + 1)) in *. assert (0 <= lev (Imax + 1)) as L0 by (unfold level; apply Rle_0_sqr).
  destruct (C72_by_index calcT vm l m sm lo hi V left right PT Hm Hsm NL NR X Imin Imax Q tol eps HI) as (n & Emin & Emax & G).
  - unfold Q; lra.
  - left. apply count_above; [lia|unfold Q; lra].
  - apply Rle_trans with (1 := count_below 2147483646 (2 * Q) ltac:(lia) ltac:(lra)). lra.
  - exists n, Emin, Emax. intros fuel leaves cuts H1 H2 H3 H4 H5 H6 H7 H8. destruct (G fuel leaves cuts H1 H2 H3 H4 H5 H6 H7 H8) as (r & R1 & R2 & R3 & R4).
    exists r. split; [exact R1|]. split; [|split; [|exact R4]].
    + intros k Hk. destruct (R2 k Hk) as (E & E' & _ & I & _). exists E'. exact I.
    + intros k E' Ew I Iw. destruct (R3 k E' I) as (Hk & E & IE & C). split; [exact Hk|].
      pose proof (C75_perturbation l lo hi left right PT order_of NL NR V W delta k E Ew HW IE Iw) as P. replace (E' - Ew) with ((E' - E) + (E - Ew)) by ring.
      apply Rle_trans with (1 := Rabs_triang _ _). lra.
Qed.
End Answers.

(** piecewise constant potentials, with the step matrices of the code: no hypothesis on steps *)
Theorem C75_piecewise_constant : forall V lo hi l vm m sm left right M Imin Imax, constant_problem V lo hi l -> vget l m = Ret sm -> smax sm < hi -> nonzero left -> nonzero right ->
  0 <= M -> (forall s, In s l -> Rabs (v0 s) <= M) -> (0 <= Imin <= Imax)%Z -> 2 * (1 + M + level lo hi (Imax + 1)) + M < level lo hi 2147483646 ->
  exists n Emin Emax, (forall fuel, (n < fuel)%nat -> bracket (me_of (calculateT eta_exact) vm l m lo hi left right) fuel Imin Imax = Ret (Emin, Emax)) /\
    Emin < Emax /\ (forall k E, (Imin <= k < Imax)%Z -> eigen_index V lo hi l left right k E -> Emin <= E < Emax).
Proof.
  intros V lo hi l vm m sm left right M Imin Imax PC Hm Hsm NL NR HM HB HI HL. pose proof PC as [PT H]. pose proof (fun E => constant_exact_at V lo hi l m sm left right E PC Hm) as X.
  destruct (C75_bracket (calculateT eta_exact) vm l m sm lo hi V left right M PT Hm Hsm NL NR X HM) with (Imin := Imin) (Imax := Imax) as (n & Emin & Emax & B1 & B2 & B3 & _); [|exact HI|exact HL|exists n, Emin, Emax; auto].
  intros s x Hs Hx. destruct (H s Hs) as (_ & _ & _ & Cv). rewrite (Cv x Hx). apply HB, Hs.
Qed.

(** an instance: the free particle with Dirichlet conditions: (k pi)^2 is within the bounds, with equality *)
Example C75_case : forall k, (1 <= k)%nat -> (INR k * PI) * (INR k * PI) = level 0 1 (Z.of_nat k) /\
  eigen_index (fun _ => 0) 0 1 two_sectors dirichlet dirichlet (Z.of_nat k - 1) (level 0 1 (Z.of_nat k)).
Proof.
  intros k Hk. assert ((INR k * PI) * (INR k * PI) = level 0 1 (Z.of_nat k)) as Q by (unfold level; rewrite <- INR_IZR_INZ; field). split; [exact Q|]. rewrite <- Q. apply dirichlet_index, Hk.
Qed.
(** the potential 0 shifted by 1/10: all eigenvalues move by 1/10 *)
Example C75_case_shift : forall k E, eigen_index (fun _ => 1 / 10) 0 1 two_sectors dirichlet dirichlet (Z.of_nat k - 1) E -> (1 <= k)%nat -> Rabs ((INR k * PI) * (INR k * PI) - E) <= 1 / 10.
Proof.
  intros k E H Hk. apply (C75_perturbation two_sectors 0 1 dirichlet dirichlet fp_pt fp_ord nz_dirichlet nz_dirichlet (fun _ => 0) (fun _ => 1 / 10) (1 / 10) (Z.of_nat k - 1)); [|apply dirichlet_index, Hk|exact H].
  intros s x _ _. rewrite Rabs_left; lra.
Qed.
Print Assumptions C75_monotone.
Print Assumptions C75_perturbation.
Print Assumptions C75_bounds.
Print Assumptions C75_dirichlet.
Print Assumptions C75_neumann.
Print Assumptions C75_bracket.
Print Assumptions C75_by_index.
Print Assumptions C75_piecewise_constant.
