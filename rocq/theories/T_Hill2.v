(** C69: the periodic searches look into a window around every eigenvalue, and the query by index lists the lowest eigenvalue. *)
From Coq Require Import String Reals Ranalysis5 ZArith Lra Lia Bool.
From Coquelicot Require Import Coquelicot.
From Coq Require Import List.
From Verif Require Import Base M_Search M_Sectors S_Sectors P_Lookup M_Core S_Core P_Core P_Core2 P_Prufer S_Eta P_Eta S_Formulas M_Formulas P_Terms2 S_Accuracy S_Zeros P_Lift P_Lift2 P_Cross P_Global2 P_Global3 P_Global5 P_Step P_Step2 P_Count P_Count2 P_Constant P_Sturm P_Sturm2 P_Sturm3 T_Core T_Zeros S_Search T_Search T_Sturm M_Periodic T_Periodic S_Hill P_Hill P_Hill2 P_Hill3 T_Hill.
Import ListNotations.
Open Scope R_scope.

Section Hill.
Variable calcT : sec -> R -> R -> bool -> Tm.
Variable vm : R.
Variables (l : list sec) (m : Z) (sm : sec) (lo hi : R) (V : R -> R) (sg : R).
Hypothesis PT : partition lo hi l.
Hypothesis Hm : vget l m = Ret sm.
Hypothesis Hsm : smax sm < hi.
Hypothesis Hsg : sg * sg = 1.
Hypothesis X : forall E, hill_exact calcT V lo hi l (smax sm) E.
Notation err := (hill_err calcT vm l m lo hi (Kscal sg)).
Notation derr := (hill_derr calcT vm l m lo hi (Kscal sg)).
Notation tmin := (hill_tmin calcT vm l m lo hi (Kscal sg)).
Notation tmax := (hill_tmax calcT vm l m lo hi (Kscal sg)).
Notation hill := (hill_eigen V lo hi l sg).
Notation turned := (turned V l lo hi).

Lemma rmin : forall a b, rises_through_integers tmin a b.
Proof using PT Hm Hsm Hsg X. intros a b. apply (C67_monotone calcT vm l m sm lo hi V sg PT Hm Hsm Hsg a b). intros; apply X. Qed.
Lemma rmax : forall a b, rises_through_integers tmax a b.
Proof using PT Hm Hsm Hsg X. intros a b. apply (C67_monotone calcT vm l m sm lo hi V sg PT Hm Hsm Hsg a b). intros; apply X. Qed.
Lemma order : forall E, -1 < tmin E <= tmax E.
Proof using PT Hm Hsm Hsg X. intro E. apply (C67_order calcT vm l m sm lo hi V sg PT Hm Hsm Hsg E (X E)). Qed.
Lemma cont : forall a b, continuous_on err a b /\ continuous_on tmin a b /\ continuous_on tmax a b.
Proof using PT Hm Hsm Hsg X. intros a b. apply (C67_continuous calcT vm l m sm lo hi V sg PT Hm Hsm Hsg (a - 1) (b + 1)); [intros; apply X|lra|lra]. Qed.

(** the query by energies: every eigenvalue of index n >= 1 between eMin and eMax belongs to a window that is searched; what is found
    there is listed, the second value provided the larger angle difference reaches n before eMax *)
Theorem C69_range : forall fuel (anti : bool) eMin eMax out n E, (anti = true <-> sg = -1) ->
  periodic_eigenvalues err derr tmin tmax fuel anti eMin eMax = Ret out ->
  (1 <= n)%Z -> hill n E -> eMin <= E <= eMax ->
  exists low high p, low <= high /\ eigenvaluePair err derr fuel low high (1 / 100000000) = Ret p /\
    low - 1 / 100000000 * Rmax 1 (Rabs low) <= E <= high + 1 / 100000000 * Rmax 1 (Rabs high) /\
    (snd p - fst p < 1 / 100000000 -> eMin <= (fst p + snd p) / 2 < eMax -> In ((n - 1)%Z, (fst p + snd p) / 2, true) out) /\
    (1 / 100000000 <= snd p - fst p -> eMin <= fst p < eMax -> In ((n - 1)%Z, fst p, false) out) /\
    (1 / 100000000 <= snd p - fst p -> eMin <= snd p < eMax -> IZR n <= tmax eMax -> In (n, snd p, false) out).
Proof using PT Hm Hsm Hsg X.
  intros fuel anti eMin eMax out n E Ha H Hn HE I.
  pose proof (C67_window calcT vm l m sm lo hi V sg PT Hm Hsm Hsg E n (X E) HE) as [W1 W2].
  apply (C43_range_windows err derr tmin tmax fuel anti eMin eMax out n E); auto.
  - apply rmin.
  - apply rmax.
  - intro x. apply order.
  - apply order.
  - pose proof (C67_parity calcT l m sm lo hi V sg PT Hm Hsm Hsg E n (X E) HE) as [_ Par].
    rewrite <- Z.negb_even. destruct (Z.even n) eqn:Ev; cbn.
    + assert (sg = 1) as S1 by (apply Par; reflexivity). destruct anti; [|reflexivity]. assert (sg = -1) by (apply Ha; reflexivity). lra.
    + destruct anti; [reflexivity|]. exfalso. assert ((sg - 1) * (sg + 1) = 0) as Z by lra. apply Rmult_integral in Z as [Z|Z].
      * assert (sg = 1) as S1 by lra. apply Par in S1. discriminate.
      * assert (sg = -1) as S1 by lra. apply Ha in S1. discriminate.
Qed.
(** the query by index: the same for every eigenvalue whose index belongs to a searched window *)
Theorem C69_index : forall fuel (anti : bool) iMin iMax out n E, (anti = true <-> sg = -1) -> (0 <= iMin)%Z ->
  periodic_byIndex err derr tmin tmax fuel anti iMin iMax = Ret out ->
  (Z.max 1 iMin <= n <= iMax + 1)%Z -> hill n E ->
  exists eMin eMax low high p, tmin eMin <= IZR (Z.max (iMin - 2) 0) /\ IZR (iMax + 2) <= tmax eMax /\ eMin <= eMax /\
    low <= high /\ eigenvaluePair err derr fuel low high (1 / 100000000) = Ret p /\
    low - 1 / 100000000 * Rmax 1 (Rabs low) <= E <= high + 1 / 100000000 * Rmax 1 (Rabs high) /\
    reported out eMin eMax iMin iMax (1 / 100000000) n p.
Proof using PT Hm Hsm Hsg X.
  intros fuel anti iMin iMax out n E Ha Hi H Hn HE. unfold periodic_byIndex in H.
  destruct (doubling fuel _ (sofZ (-1))) as [eMin| | |] eqn:D1; try discriminate. cbn [bind] in H.
  destruct (doubling fuel _ (sofZ 1)) as [eMax| | |] eqn:D2; try discriminate. cbn [bind] in H.
  pose proof (C67_window calcT vm l m sm lo hi V sg PT Hm Hsm Hsg E n (X E) HE) as [W1 W2].
  assert (forall (f : R -> bool) k x r, doubling k f x = Ret r -> f r = false /\ (x <= 0 -> r <= x) /\ (0 <= x -> x <= r)) as DB.
  { intros f. induction k as [|k IH]; intros x r; cbn [doubling]; destruct (f x) eqn:Q; try discriminate; try (intros Z; injection Z as <-; split; [exact Q|split; intros; lra]).
    intros Z. apply IH in Z. cbn in Z. destruct Z as (Z1 & Z2 & Z3). split; [exact Z1|]. split; intros; [specialize (Z2 ltac:(lra))|specialize (Z3 ltac:(lra))]; lra. }
  apply DB in D1. apply DB in D2. destruct D1 as (D1 & D1b & _), D2 as (D2 & _ & D2b). cbn in D1b, D2b.
  apply Rltb_false in D1. apply Rltb_false in D2. specialize (D1b ltac:(lra)). specialize (D2b ltac:(lra)).
  assert (Ev : Z.even (n - first_window iMin anti) = true).
  { pose proof (C67_parity calcT l m sm lo hi V sg PT Hm Hsm Hsg E n (X E) HE) as [_ Par].
    unfold first_window. pose proof (Z.quot_rem' iMin 2). replace (iMin - Z.rem iMin 2)%Z with (2 * Z.quot iMin 2)%Z by lia.
    rewrite Z.even_sub, Z.even_add, Z.even_mul. change (Z.even 2) with true. cbn [orb]. destruct (Z.even n) eqn:Evn.
    - assert (sg = 1) as S1 by (apply Par; reflexivity). destruct anti; [|reflexivity]. assert (sg = -1) by (apply Ha; reflexivity). lra.
    - destruct anti; [reflexivity|]. exfalso. assert ((sg - 1) * (sg + 1) = 0) as Z by lra. apply Rmult_integral in Z as [Z|Z].
      * assert (sg = 1) as S1 by lra. apply Par in S1. discriminate.
      * assert (sg = -1) as S1 by lra. apply Ha in S1. discriminate. }
  assert (F : (first_window iMin anti <= n)%Z).
  { unfold first_window in *. pose proof (Z.rem_nonneg iMin 2 ltac:(lia) Hi). destruct anti; [|lia].
    pose proof (Z.quot_rem' iMin 2). destruct (Z.eq_dec (Z.rem iMin 2) 0) as [Q|Q]; [|lia].
    destruct (Z.eq_dec n iMin) as [-> |]; [|lia]. rewrite Q in Ev. replace (iMin - (iMin - 0 + 1))%Z with (-1)%Z in Ev by lia. discriminate. }
  assert (e8 : 0 < (eps8 : R) <= 1) by (unfold eps8; cbn; lra).
  destruct (C43_windows err derr tmin tmax rmin rmax fuel eMin eMax iMin iMax eps8 e8 anti out ltac:(lra) H n ltac:(lia) ltac:(lia) Ev)
    as (low & high & p & L & P & RR & W).
  change (eps8 : R) with (1 / 100000000) in *.
  exists eMin, eMax, low, high, p. split; [exact D1|]. split; [exact D2|]. split; [lra|]. split; [exact L|]. split; [exact P|]. split; [apply W; lra|exact RR].
Qed.

(** ---- the lowest eigenvalue *)
Lemma tmax_one : forall E, tmin E <= 0 -> tmax E < 1.
Proof using PT Hm Hsm Hsg X.
  intros E H. destruct (geometry calcT l m sm lo hi V PT Hm Hsm E (X E)) as (Ho & Hlh & M & HM & B).
  destruct (matching_exact calcT vm l m sm lo hi V sg PT Hm Hsm Hsg E (X E)) as (p & p' & q & q' & f & g & Sp & Sq & P0 & P1 & Q0 & Q1 & Np & Nq & Af & Ag & F1 & F2 & G1 & G2 & EE & Em & Ex).
  rewrite Em in H. rewrite Ex.
  assert (turned E (f lo) (f hi)) as Tf by (exists p, p', f; auto). assert (turned E (g lo) (g hi)) as Tg by (exists q, q', g; auto).
  pose proof (turned_close V l lo hi M PT Ho B HM Hlh E _ _ _ _ Tf Tg) as C1. pose proof (turned_close V l lo hi M PT Ho B HM Hlh E _ _ _ _ Tg Tf) as C2.
  specialize (F2 0%Z) as F20. specialize (G2 0%Z) as G20. specialize (F1 1%Z) as F11. specialize (G1 1%Z) as G11. pose proof PIpos as HP.
  set (cp := col_diff calcT vm l m lo hi sg 1 1 E) in *. set (cq := col_diff calcT vm l m lo hi sg 1 (-1) E) in *.
  assert (f hi - f lo <= 0 \/ g hi - g lo <= 0) as D.
  { destruct (Rlt_le_dec 0 (f hi - f lo)) as [L|L]; [|left; exact L]. destruct (Rlt_le_dec 0 (g hi - g lo)) as [L'|L']; [|right; exact L'].
    assert (0 < cp) by (apply F20; lra). assert (0 < cq) by (apply G20; lra). unfold Rmin in H. destruct (Rle_dec cp cq); lra. }
  apply Rmax_lub_lt.
  - destruct (Rlt_le_dec cp 1) as [|L]; [assumption|]. apply F11 in L. lra.
  - destruct (Rlt_le_dec cq 1) as [|L]; [assumption|]. apply G11 in L. lra.
Qed.
(** between two energies at which the larger difference is below and at least 1 there is one where it is 1, and there the
    determinant is negative *)
Lemma level_one : forall a b, a <= b -> tmax a < 1 -> 1 <= tmax b -> exists E1, a < E1 <= b /\ tmax E1 = 1.
Proof using PT Hm Hsm Hsg X.
  intros a b L Ha Hb. destruct (cont a b) as (_ & _ & C).
  destruct (ivt (fun x => tmax x - 1) a b L) as (z & Hz & Ez).
  - intros x Hx. apply continuity_pt_minus; [apply C, Hx|apply continuity_pt_const; intros ? ?; reflexivity].
  - nra.
  - exists z. split; [|lra]. split; [|apply Hz]. destruct (proj1 Hz) as [|Q]; [assumption|]. subst z. lra.
Qed.
Theorem C69_ground : sg = 1 -> forall fuel iMax out, (0 < iMax)%Z ->
  periodic_byIndex err derr tmin tmax fuel false 0 iMax = Ret out ->
  (forall E1 E2 n, tmax E1 = 1 -> hill n E2 -> E1 < E2 -> E1 + 2 / 100000000 * Rmax 1 (Rabs E1) < E2) ->
  exists E0 E, hill 0 E0 /\ (forall E' n, hill n E' -> E0 <= E') /\ In (0%Z, E, false) out /\ Rabs (E - E0) <= 3 / 100000000 * Rmax 1 (Rabs E).
Proof using PT Hm Hsm Hsg X.
  intros S1 fuel iMax out HiM H Gap. unfold periodic_byIndex in H.
  destruct (doubling fuel _ (sofZ (-1))) as [eMin| | |] eqn:D1; try discriminate. cbn [bind] in H.
  destruct (doubling fuel _ (sofZ 1)) as [eMax| | |] eqn:D2; try discriminate. cbn [bind] in H.
  assert (forall (f : R -> bool) k x r, doubling k f x = Ret r -> f r = false /\ (x <= 0 -> r <= x) /\ (0 <= x -> x <= r)) as DB.
  { intros f. induction k as [|k IH]; intros x r; cbn [doubling]; destruct (f x) eqn:Q; try discriminate; try (intros Z; injection Z as <-; split; [exact Q|split; intros; lra]).
    intros Z. apply IH in Z. cbn in Z. destruct Z as (Z1 & Z2 & Z3). split; [exact Z1|]. split; intros; [specialize (Z2 ltac:(lra))|specialize (Z3 ltac:(lra))]; lra. }
  apply DB in D1. apply DB in D2. destruct D1 as (D1 & D1b & _), D2 as (D2 & _ & D2b). cbn in D1b, D2b.
  apply Rltb_false in D1. apply Rltb_false in D2. specialize (D1b ltac:(lra)). specialize (D2b ltac:(lra)).
  change (tmin eMin <= 0) in D1. change (IZR (iMax + 2) <= tmax eMax) in D2.
  assert (3 <= tmax eMax) as T3 by (eapply Rle_trans; [|exact D2]; apply (IZR_le 3); lia).
  pose proof (tmax_one eMin D1) as T1.
  unfold eigenpairsHelper in H. cbv zeta in H. change (0 - Z.rem 0 2 + 0)%Z with 0%Z in H. change (0 =? 0)%Z with true in H. cbv iota in H.
  assert (forall fuel', stepping fuel' sadd (fun E => slt (findHigh tmax (iMax + 1) E) (sofZ 0)) (sofZ 1) eMax = Ret eMax) as St1.
  { intro fuel'. destruct fuel'; cbn [stepping]; (replace (slt _ _) with false; [reflexivity|]); symmetry; apply Rltb_false; unfold findHigh; change (0 <= tmax eMax - IZR (iMax + 1) - 1); rewrite plus_IZR in *; lra. }
  rewrite St1 in H. cbn [bind] in H.
  assert (forall fuel', stepping fuel' ssub (fun E => slt (sofZ 0) (findHigh tmax 0 E)) (sofZ 1) eMin = Ret eMin) as St2.
  { intro fuel'. destruct fuel'; cbn [stepping]; (replace (slt _ _) with false; [reflexivity|]); symmetry; apply Rltb_false; unfold findHigh; change (tmax eMin - 0 - 1 <= 0); lra. }
  rewrite St2 in H. cbn [bind] in H.
  destruct (binarySearch _ eMin eMax _ _ _) as [high| | |] eqn:B1; try discriminate. cbn [bind] in H.
  destruct (binarySearch _ eMin high _ _ _) as [E| | |] eqn:B2; try discriminate. cbn [bind] in H.
  destruct (pairs_loop _ _ _ _ _ _ _ _ _ _ _ _ _ _) as [rest| | |] eqn:Q; try discriminate. cbn [bind] in H. injection H as <-.
  set (eps := 1 / 100000000). change (eps8 : R) with eps in *. assert (0 < eps <= 1) as He by (unfold eps; lra).
  destruct (bs_final _ eps eMin eMax _ _ _ (proj1 He) ltac:(lra) B1) as (a' & b' & Eh & W' & Ia' & Ib' & Ga' & Gb').
  unfold findHigh in Ga', Gb'. change (a' = eMin \/ 0 < (tmax eMin - 0 - 1) * (tmax a' - 0 - 1)) in Ga'. change (b' = eMax \/ (tmax eMin - 0 - 1) * (tmax b' - 0 - 1) <= 0) in Gb'.
  assert (tmax a' < 1) as Ta by (destruct Ga' as [-> |G]; [exact T1|nra]).
  assert (1 <= tmax b') as Tb by (destruct Gb' as [-> |G]; [lra|nra]).
  destruct (level_one a' b' ltac:(lra) Ta Tb) as (E1 & I1 & L1).
  assert (a' < b') as Lab by lra.
  assert (high < eMax) as Hh by lra.
  (* the ground state *)
  assert (err E1 <= -8) as N1. { apply (C67_sign calcT vm l m sm lo hi V sg PT Hm Hsm Hsg E1 1%Z (X E1)); [right; exact L1|]. rewrite S1. intros [_ C]. specialize (C eq_refl). discriminate. }
  assert (0 <= err eMin) as P0 by (apply (C68_below calcT vm l m sm lo hi V sg PT Hm Hsm Hsg eMin (X eMin) D1); exact S1).
  destruct (cont eMin E1) as (Ce & _ & _).
  destruct (ivt err eMin E1 ltac:(lra) Ce) as (E0 & I0 & Z0); [nra|].
  assert (E0 < E1) as L01. { destruct (proj2 I0) as [|Z]; [assumption|]. subst. lra. }
  destruct (proj1 (C67_zero calcT vm l m sm lo hi V sg PT Hm Hsm Hsg E0 (X E0)) Z0) as (n0 & H0).
  assert (forall x y, x < y -> tmax y <= 1 -> tmax x < 1) as Below.
  { intros x y Lt Ty. destruct (Rlt_le_dec (tmax x) 1) as [|C]; [assumption|]. pose proof (rmax x y 1%Z x y ltac:(lra) Lt ltac:(lra) C). lra. }
  assert (forall x n, hill n x -> x <= E1 -> n = 0%Z) as Zero.
  { intros x n Hx Lx. pose proof (C67_window calcT vm l m sm lo hi V sg PT Hm Hsm Hsg x n (X x) Hx) as [W1 _].
    pose proof (C67_parity calcT l m sm lo hi V sg PT Hm Hsm Hsg x n (X x) Hx) as [Nn Par]. assert (Z.even n = true) as Ev by (apply Par, S1).
    pose proof (order x) as Ox. assert (tmax x <= 1) as Tx by (destruct Lx as [Lx| ->]; [left; apply (Below x E1 Lx); lra|lra]).
    assert (IZR n < IZR 2) as L2 by lra. apply lt_IZR in L2. destruct (Z.eq_dec n 0) as [|Z]; [assumption|]. assert (n = 1)%Z as -> by lia. discriminate. }
  assert (n0 = 0)%Z as -> by (apply (Zero E0); [exact H0|lra]).
  assert (forall E' n, hill n E' -> E0 <= E') as Low.
  { intros E' n Hn. destruct (Rle_lt_dec E0 E') as [|C]; [assumption|]. assert (n = 0)%Z as -> by (apply (Zero E' n Hn); lra).
    pose proof (C68_ground calcT l m sm lo hi V sg PT Hm Hsm Hsg E' E0 (X E') (X E0) Hn H0). lra. }
  (* signs on both sides of it *)
  assert (forall x, E0 < x -> x <= b' -> err x < 0) as Neg.
  { intros x Lx Lb. destruct (Rlt_le_dec (err x) 0) as [|C]; [assumption|exfalso].
    destruct (Rle_lt_dec x E1) as [Lx1|Lx1].
    - destruct (cont x E1) as (Cx & _). destruct (ivt err x E1 Lx1 Cx) as (z & Iz & Zz); [nra|].
      destruct (proj1 (C67_zero calcT vm l m sm lo hi V sg PT Hm Hsm Hsg z (X z)) Zz) as (n & Hn).
      assert (n = 0)%Z as -> by (apply (Zero z n Hn); lra). pose proof (C68_ground calcT l m sm lo hi V sg PT Hm Hsm Hsg z E0 (X z) (X E0) Hn H0). lra.
    - destruct (cont E1 x) as (Cx & _). destruct (ivt err E1 x ltac:(lra) Cx) as (z & Iz & Zz); [nra|].
      destruct (proj1 (C67_zero calcT vm l m sm lo hi V sg PT Hm Hsm Hsg z (X z)) Zz) as (n & Hn).
      assert (E1 < z) as Lz. { destruct (proj1 Iz) as [|Q']; [assumption|]. subst z. lra. }
      pose proof (Gap E1 z n L1 Hn Lz) as G.
      assert (b' - a' <= 2 / 100000000 * Rmax 1 (Rabs E1)); [|lra].
      apply Rle_trans with (1 := W'). replace (2 / 100000000) with (eps * 2) by (unfold eps; lra). rewrite Rmult_assoc. apply Rmult_le_compat_l; [lra|].
      assert (Rabs (E1 - a') <= eps * Rmax 1 (Rabs a')) as Rb by (rewrite Rabs_right by lra; lra).
      pose proof (Rabs_triang (a' - E1) E1) as T. replace (a' - E1 + E1) with a' in T by ring. rewrite (Rabs_minus_sym a' E1) in T.
      pose proof (Rmax_l 1 (Rabs E1)). pose proof (Rmax_r 1 (Rabs E1)).
      apply Rmax_lub; [lra|]. destruct (Rle_dec (Rabs a') 1) as [La|La]; [lra|]. rewrite (Rmax_right 1 (Rabs a')) in Rb by lra.
      assert (eps * Rabs a' <= 1 / 2 * Rabs a') by (apply Rmult_le_compat_r; [apply Rabs_pos|unfold eps; lra]). lra. }
  assert (forall x, eMin <= x -> x < E0 -> 0 < err x) as Pos.
  { intros x Lx Lb. destruct (Rlt_le_dec 0 (err x)) as [|C]; [assumption|exfalso].
    destruct (cont eMin x) as (Cx & _). destruct (ivt err eMin x Lx Cx) as (z & Iz & Zz); [nra|].
    destruct (proj1 (C67_zero calcT vm l m sm lo hi V sg PT Hm Hsm Hsg z (X z)) Zz) as (n & Hn). pose proof (Low z n Hn). lra. }
  destruct (bs_final _ eps eMin high _ _ _ (proj1 He) ltac:(lra) B2) as (a & b & Ee & W & Ia & Ib & Ga & Gb).
  assert (a <= E0) as La. { destruct (Rle_lt_dec a E0) as [|C]; [assumption|]. pose proof (Neg a C ltac:(lra)). destruct Ga as [-> |G]; [lra|nra]. }
  assert (Rabs (E - a) <= eps / 2 * Rmax 1 (Rabs a)) as Ra by (apply Rabs_le; lra). pose proof (width_swap eps a E He Ra) as Sa.
  assert (b - a <= 2 * eps * Rmax 1 (Rabs E)) as Wa. { apply Rle_trans with (1 := W). rewrite (Rmult_comm 2 eps), Rmult_assoc. apply Rmult_le_compat_l; lra. }
  assert (Rabs (E - E0) <= 3 * eps * Rmax 1 (Rabs E)) as Close.
  { pose proof (Rmax_l 1 (Rabs E)) as M1. assert (0 < eps * Rmax 1 (Rabs E)) as Mp by (apply Rmult_lt_0_compat; lra).
    destruct (Rle_lt_dec E0 b) as [C|C]; [apply Rabs_le; lra|]. pose proof (Pos b ltac:(lra) C) as Pb.
    destruct Gb as [Gb|G].
    - subst b. assert (Rabs (high - a') <= eps / 2 * Rmax 1 (Rabs a')) as Rb by (apply Rabs_le; lra). pose proof (width_swap eps a' high He Rb) as Sb.
      assert (E0 - high <= eps * Rmax 1 (Rabs high)) as D0.
      { apply Rle_trans with (eps / 2 * (2 * Rmax 1 (Rabs high))); [|lra]. apply Rle_trans with (eps / 2 * Rmax 1 (Rabs a')); [lra|apply Rmult_le_compat_l; lra]. }
      assert (Rmax 1 (Rabs high) <= 2 * Rmax 1 (Rabs E)) as Mh.
      { apply Rmax_lub; [lra|]. pose proof (Rabs_triang (high - E) E) as T. replace (high - E + E) with high in T by ring.
        assert (Rabs (high - E) <= eps * Rmax 1 (Rabs E)) as D by (rewrite Rabs_right by lra; lra). pose proof (Rmax_r 1 (Rabs E)).
        assert (eps * Rmax 1 (Rabs E) <= 1 * Rmax 1 (Rabs E)) by (apply Rmult_le_compat_r; lra). lra. }
      assert (eps * Rmax 1 (Rabs high) <= eps * (2 * Rmax 1 (Rabs E))) by (apply Rmult_le_compat_l; lra). apply Rabs_le. lra.
    - exfalso. destruct (Req_dec (err eMin) 0) as [Z|Z]; [|nra].
      destruct (proj1 (C67_zero calcT vm l m sm lo hi V sg PT Hm Hsm Hsg eMin (X eMin)) Z) as (n & Hn). pose proof (Low _ _ Hn). lra. }
  exists E0, E. split; [exact H0|]. split; [exact Low|]. split; [|replace (3 / 100000000) with (3 * eps) by (unfold eps; lra); exact Close].
  apply in_or_app. left. unfold addToResult. cbn [orb]. replace ((0 <? 0)%Z || (iMax <=? 0)%Z || slt E eMin || sle eMax E) with false; [left; reflexivity|].
  symmetry. rewrite !orb_false_iff. split; [split; [split; [reflexivity|apply Z.leb_gt; lia]|apply Rltb_false; lra]|apply Rleb_false; lra].
Qed.
End Hill.

(** ---- the free particle: V = 0 on [0, 1], two sectors, periodic *)
Definition fp_sector : sec := mkSector 0 (1 / 2) Dfwd [0].
Definition fp_exact : forall E, hill_exact (calculateT eta_exact) (fun _ => 0) 0 1 two_sectors (smax fp_sector) E :=
  fun E left right => constant_exact_at (fun _ => 0) 0 1 two_sectors 0 fp_sector left right E two_sectors_ok eq_refl.
Definition fp_err := hill_err (calculateT eta_exact) 0 two_sectors 0 0 1 (Kscal 1).
Definition fp_derr := hill_derr (calculateT eta_exact) 0 two_sectors 0 0 1 (Kscal 1).
Definition fp_tmin := hill_tmin (calculateT eta_exact) 0 two_sectors 0 0 1 (Kscal 1).
Definition fp_tmax := hill_tmax (calculateT eta_exact) 0 two_sectors 0 0 1 (Kscal 1).
Notation fp_hill := (hill_eigen (fun _ => 0) 0 1 two_sectors 1).
Lemma fp_pt : partition 0 1 two_sectors. Proof. apply two_sectors_ok. Qed.
Lemma fp_m : vget two_sectors 0 = Ret fp_sector. Proof. reflexivity. Qed.
Lemma fp_sm : smax fp_sector < 1. Proof. cbn. lra. Qed.
Lemma fp_sg : 1 * 1 = 1. Proof. lra. Qed.
Lemma fp_ord : forall s : sec, In s two_sectors -> smin s < smax s.
Proof. apply (constant_order _ _ _ _ two_sectors_ok). Qed.
Lemma fp_bound : forall (s : sec) (x : R), In s two_sectors -> smin s < x < smax s -> Rabs ((fun _ => 0) x) <= 0.
Proof. intros s x _ _. cbv beta. rewrite Rabs_R0. lra. Qed.

Lemma free_solution : forall w (a b : R), 0 < w -> solution (fun _ => 0) (w * w) 0 1 two_sectors (fun x => a * cos (w * x) + b * (sin (w * x) / w)) (fun x => - a * w * sin (w * x) + b * cos (w * x)).
Proof.
  intros w a b Hw.
  assert (forall x, is_derive (fun x => a * cos (w * x) + b * (sin (w * x) / w)) x (- a * w * sin (w * x) + b * cos (w * x))) as D1 by (intro x; auto_derive; [exact I|field; lra]).
  assert (forall x, is_derive (fun x => - a * w * sin (w * x) + b * cos (w * x)) x ((0 - w * w) * (a * cos (w * x) + b * (sin (w * x) / w)))) as D2 by (intro x; auto_derive; [exact I|field; lra]).
  split; [|intros s x _ _; split; [apply D1|apply D2]].
  intros x _. split; [apply (ex_derive_continuous (fun x => a * cos (w * x) + b * (sin (w * x) / w))); eexists; apply D1|apply (ex_derive_continuous (fun x => - a * w * sin (w * x) + b * cos (w * x))); eexists; apply D2].
Qed.
Lemma free_err : forall w, 0 < w -> fp_err (w * w) = 4 * cos w - 4.
Proof.
  intros w Hw. unfold fp_err.
  destruct (matching_exact (calculateT eta_exact) 0 two_sectors 0 fp_sector 0 1 (fun _ => 0) 1 fp_pt fp_m fp_sm fp_sg (w * w) (fp_exact (w * w))) as (p & p' & q & q' & f & g & Sp & Sq & P0 & P1 & Q0 & Q1 & _ & _ & _ & _ & _ & _ & _ & _ & -> & _).
  assert (forall s : sec, In s two_sectors -> smin s <= smax s) as Hle by (intros; left; apply fp_ord; assumption).
  assert (forall b y y', solution (fun _ => 0) (w * w) 0 1 two_sectors y y' -> y 0 = 1 -> y' 0 = b -> y 1 = cos w + b * (sin w / w) /\ y' 1 = - w * sin w + b * cos w) as U.
  { intros b y y' Sy Y0 Y1. destruct (solution_unique (fun _ => 0) two_sectors 0 1 0 (proj2 fp_pt) Hle fp_bound ltac:(lra) (w * w) y y' _ _ Sy (free_solution w 1 b Hw) 1 0 ltac:(lra)) with (x := 1) as [A1 A2]; try lra.
    - rewrite Y0, Rmult_0_r, cos_0, sin_0. field. lra.
    - rewrite Y1, Rmult_0_r, cos_0, sin_0. ring.
    - rewrite A1, A2, Rmult_1_r. split; ring. }
  destruct (U 1 p p' Sp P0 P1) as [U0 U1]. destruct (U (-1) q q' Sq Q0 Q1) as [V1 V2]. unfold tr2, trace2. rewrite U0, U1, V1, V2. field. lra.
Qed.
Lemma wave_zeros : forall k, (1 <= k)%nat -> lists_zeros (wave (INR k)) (fun x => 0 < x <= 1) (map (fun i => INR i / INR k) (seq 1 k)).
Proof.
  intros k Hk. pose proof PIpos as HP. assert (1 <= INR k) as Hk1 by (apply (le_INR 1); lia). split.
  - apply FinFun.Injective_map_NoDup; [|apply seq_NoDup]. intros i j Hij. apply INR_eq. apply (Rmult_eq_reg_r (/ INR k)); [exact Hij|apply Rinv_neq_0_compat; lra].
  - intro x. rewrite in_map_iff. split.
    + intros (i & <- & Hi). apply in_seq in Hi. assert (1 <= INR i) by (apply (le_INR 1); lia). assert (INR i <= INR k) by (apply le_INR; lia). split.
      * split; [apply Rdiv_lt_0_compat; lra|]. apply (Rmult_le_reg_r (INR k)); [lra|]. unfold Rdiv. rewrite Rmult_assoc, Rinv_l; lra.
      * unfold wave. replace (INR k * PI * (INR i / INR k)) with (IZR (Z.of_nat i) * PI) by (rewrite <- INR_IZR_INZ; field; lra). rewrite sin_eq_0_1; [unfold Rdiv; ring|]. exists (Z.of_nat i). reflexivity.
    + intros [Hx Z]. unfold wave in Z. assert (sin (INR k * PI * x) = 0) as S0. { apply (Rmult_eq_reg_r (/ (INR k * PI))); [rewrite Rmult_0_l; exact Z|apply Rinv_neq_0_compat; nra]. }
      apply sin_eq_0_0 in S0 as [z Ez]. assert (INR k * x = IZR z) as E2 by (apply (Rmult_eq_reg_r PI); lra).
      assert (0 < IZR z) as K1 by (rewrite <- E2; apply Rmult_lt_0_compat; lra). assert (IZR z <= INR k) as K2 by nra. rewrite INR_IZR_INZ in K2. apply lt_IZR in K1. apply le_IZR in K2.
      exists (Z.to_nat z). split; [|apply in_seq; lia]. rewrite INR_IZR_INZ, Z2Nat.id by lia. rewrite <- E2. field. lra.
Qed.
Lemma free_eigen : forall k, (1 <= k)%nat -> fp_hill (Z.of_nat (2 * k)) ((INR (2 * k) * PI) * (INR (2 * k) * PI)).
Proof.
  intros k Hk. pose proof PIpos as HP. assert (1 <= INR (2 * k)) as Hk1 by (apply (le_INR 1); lia).
  exists (wave (INR (2 * k))), (wave' (INR (2 * k))), (map (fun i => INR i / INR (2 * k)) (seq 1 (2 * k))).
  assert (solution (fun _ => 0) (INR (2 * k) * PI * (INR (2 * k) * PI)) 0 1 two_sectors (wave (INR (2 * k))) (wave' (INR (2 * k)))) as S by (apply wave_solution; lra).
  split; [exact S|].
  split; [apply (nontrivial_if (fun _ => 0) 0 1 two_sectors _ _ _ 0 two_sectors_ok S ltac:(lra)); right; unfold wave'; rewrite Rmult_0_r, cos_0; lra|].
  assert (INR (2 * k) * PI * 1 = 0 + 2 * INR k * PI) as Q by (rewrite mult_INR; cbn; ring).
  split; [unfold wave; rewrite Q, sin_period, Rmult_0_r; ring|]. split; [unfold wave'; rewrite Q, cos_period, Rmult_0_r; ring|].
  split; [apply wave_zeros; lia|]. rewrite map_length, seq_length. reflexivity.
Qed.
Lemma free_ground : fp_hill 0 0.
Proof.
  exists (fun _ => 1), (fun _ => 0), []. split; [|split; [|split; [lra|split; [lra|split; [|reflexivity]]]]].
  - split; [intros; split; apply continuous_const|]. intros s x _ _. split; [apply (is_derive_const 1)|]. replace ((0 - 0) * 1) with 0 by ring. apply (is_derive_const 0).
  - intros x _. left. lra.
  - split; [constructor|]. intro x. split; [intros []|intros [_ H]; lra].
Qed.
Lemma free_low : forall E, E <= -1 -> fp_tmin E <= 0.
Proof.
  intros E HE. 
  assert (fp_tmin (-1) <= 0) as T.
  { unfold fp_tmin.
    destruct (matching_exact (calculateT eta_exact) 0 two_sectors 0 fp_sector 0 1 (fun _ => 0) 1 fp_pt fp_m fp_sm fp_sg (-1) (fp_exact (-1))) as (p & p' & q & q' & f & g & Sp & Sq & P0 & P1 & Q0 & Q1 & Np & _ & Af & _ & F1 & F2 & _ & _ & _ & -> & _).
    apply Rle_trans with (1 := Rmin_l _ _). set (c := col_diff _ _ _ _ _ _ _ _ _ _) in *. destruct (Rle_lt_dec c 0) as [|C]; [assumption|]. apply (F2 0%Z) in C.
    assert (forall s : sec, In s two_sectors -> smin s <= smax s) as Hle by (intros; left; apply fp_ord; assumption).
    assert (solution (fun _ => 0) (-1) 0 1 two_sectors exp exp) as Se.
    { split; [intros x _; split; apply (ex_derive_continuous exp); eexists; apply is_derive_exp|]. intros s x _ _. split; [apply is_derive_exp|]. replace ((0 - -1) * exp x) with (exp x) by ring. apply is_derive_exp. }
    destruct (solution_unique (fun _ => 0) two_sectors 0 1 0 (proj2 fp_pt) Hle fp_bound ltac:(lra) (-1) p p' _ _ Sp Se 1 0 ltac:(lra)) with (x := 1) as [A1 A2]; try lra; try (rewrite exp_0; lra).
    assert (turned (fun _ => 0) two_sectors 0 1 (-1) (f 0) (f 1)) as Tf by (exists p, p', f; auto).
    assert (multiple_of_pi (f 1 - f 0)) as [k Ek].
    { apply (angles_pi (p 0) (p' 0)); [apply Np; lra| |pose proof (proj2 Af 0 ltac:(lra)) as Q; cbv beta in Q; lra].
      pose proof (proj2 Af 1 ltac:(lra)) as Q. cbv beta in Q. rewrite A1, A2 in Q. rewrite P0, P1. pose proof (exp_pos 1). apply (Rmult_eq_reg_l (exp 1)); lra. }
    destruct (global_count two_sectors 0 1 fp_pt (fun _ => 0) (-1) p p' Sp Np fp_ord 1 f 0 1 ltac:(lra) Af ltac:(lra) ltac:(lra) ltac:(lra)) as (zs & LZ & _).
    pose proof (turned_count (fun _ => 0) two_sectors 0 1 fp_pt fp_ord ltac:(lra) (-1) p p' f Sp Np Af k zs ltac:(lra) LZ) as Hk.
    assert (zs = []) as ->.
    { destruct zs as [|x zs]; [reflexivity|exfalso]. destruct LZ as [_ LZ]. destruct (proj1 (LZ x) (or_introl eq_refl)) as [Hx Zx].
      destruct (solution_unique (fun _ => 0) two_sectors 0 1 0 (proj2 fp_pt) Hle fp_bound ltac:(lra) (-1) p p' _ _ Sp Se 1 0 ltac:(lra)) with (x := x) as [A _]; try lra; try (rewrite exp_0; lra). pose proof (exp_pos x). lra. }
    cbn in Hk. subst k. lra. }
  destruct HE as [HE| ->]; [|exact T]. destruct (Rle_lt_dec (fp_tmin E) 0) as [|C]; [assumption|].
  pose proof (rmin (calculateT eta_exact) 0 two_sectors 0 fp_sector 0 1 (fun _ => 0) 1 fp_pt fp_m fp_sm fp_sg fp_exact E (-1) 0%Z E (-1) ltac:(lra) HE ltac:(lra) ltac:(left; exact C)) as Q. unfold fp_tmin in T. lra.
Qed.
Lemma fp_order : forall E, -1 < fp_tmin E <= fp_tmax E.
Proof. apply (order (calculateT eta_exact) 0 two_sectors 0 fp_sector 0 1 (fun _ => 0) 1 fp_pt fp_m fp_sm fp_sg fp_exact). Qed.
Lemma fp_rmax : forall a b, rises_through_integers fp_tmax a b.
Proof. apply (rmax (calculateT eta_exact) 0 two_sectors 0 fp_sector 0 1 (fun _ => 0) 1 fp_pt fp_m fp_sm fp_sg fp_exact). Qed.
Lemma fp_window : forall E n, fp_hill n E -> IZR n - 1 < fp_tmin E /\ fp_tmax E < IZR n + 1.
Proof. intros E n H. apply (C67_window (calculateT eta_exact) 0 two_sectors 0 fp_sector 0 1 (fun _ => 0) 1 fp_pt fp_m fp_sm fp_sg E n (fp_exact E) H). Qed.
Lemma free_high : forall N : Z, exists X, forall E, X <= E -> IZR N <= fp_tmax E.
Proof.
  intros N. set (k := S (Z.to_nat N)). exists ((INR (2 * k) * PI) * (INR (2 * k) * PI)). intros E HE.
  pose proof (fp_window _ _ (free_eigen k ltac:(lia))) as [W _]. pose proof (fp_order ((INR (2 * k) * PI) * (INR (2 * k) * PI))) as O.
  assert (N <= Z.of_nat (2 * k) - 1)%Z as HN by lia. apply IZR_le in HN. rewrite minus_IZR in HN.
  destruct HE as [HE| <-]; [|lra]. left. apply (fp_rmax _ _ N _ E (Rle_refl _) HE (Rle_refl _)). lra.
Qed.
Lemma pi_sq : 9 < PI * PI <= 16.
Proof. pose proof PI2_3_2. pose proof PI_4. nra. Qed.
(** the only energy at which the larger angle difference is 1 *)
Lemma free_one : forall E1, fp_tmax E1 = 1 -> E1 = PI * PI.
Proof.
  intros E1 H. pose proof PIpos as HP. pose proof pi_sq as PS.
  pose proof (fp_window _ _ (free_eigen 1 ltac:(lia))) as [W _]. pose proof (fp_window _ _ free_ground) as [_ W0]. cbn in W0.
  change (INR (2 * 1)) with (1 + 1) in W. change (Z.of_nat (2 * 1)) with 2%Z in W. cbn in W. set (E2 := (1 + 1) * PI * ((1 + 1) * PI)) in *.
  assert (0 < E1) as L0. { destruct (Rlt_le_dec 0 E1) as [|C]; [assumption|exfalso]. destruct C as [C| ->]; [|lra]. pose proof (fp_rmax E1 0 1%Z E1 0 ltac:(lra) C ltac:(lra) ltac:(lra)). lra. }
  assert (E1 < E2) as L2. { destruct (Rlt_le_dec E1 E2) as [|C]; [assumption|exfalso]. pose proof (fp_order E2). destruct C as [C| <-]; [|lra]. pose proof (fp_rmax E2 E1 1%Z E2 E1 ltac:(lra) C ltac:(lra) ltac:(lra)). lra. }
  assert (fp_err E1 <= -8) as N1. { apply (C67_sign (calculateT eta_exact) 0 two_sectors 0 fp_sector 0 1 (fun _ => 0) 1 fp_pt fp_m fp_sm fp_sg E1 1%Z (fp_exact E1)); [right; exact H|]. intros [_ C]. specialize (C eq_refl). discriminate. }
  set (w := sqrt E1). assert (0 < w) as Hw by (apply sqrt_lt_R0; exact L0). assert (E1 = w * w) as Ew by (symmetry; apply sqrt_sqrt; lra). rewrite Ew in N1. rewrite free_err in N1 by exact Hw.
  assert (w < 2 * PI) as L by (unfold E2 in L2; nra).
  pose proof (COS_bound w) as CB. assert (cos w = -1) as C1 by lra.
  assert (sin w = 0) as S0. { pose proof (sin2_cos2 w) as Q. rewrite C1 in Q. unfold Rsqr in Q. nra. }
  apply sin_eq_0_0 in S0 as [z Ez]. assert (0 < IZR z) as Z1 by nra. assert (IZR z < 2) as Z2 by nra. apply lt_IZR in Z1, Z2. assert (z = 1)%Z as -> by lia. rewrite Ew, Ez. ring.
Qed.
Lemma free_neg : forall E, 0 < E -> E < 4 * (PI * PI) -> fp_err E < 0.
Proof.
  intros E H0 H1. pose proof PIpos as HP. set (w := sqrt E). assert (0 < w) as Hw by (apply sqrt_lt_R0; exact H0). assert (E = w * w) as Ew by (symmetry; apply sqrt_sqrt; lra).
  rewrite Ew, free_err by exact Hw. assert (w < 2 * PI) by nra. replace w with (2 * (w / 2)) by field. rewrite cos_2a_sin. assert (0 < sin (w / 2)) by (apply sin_gt_0; lra). nra.
Qed.
(** no eigenvalue of the free particle strictly between 0 and 4 pi^2 *)
Lemma free_none : forall E n, fp_hill n E -> 0 < E -> 4 * (PI * PI) <= E.
Proof.
  intros E n H H0. destruct (Rle_lt_dec (4 * (PI * PI)) E) as [|C]; [assumption|]. pose proof (free_neg E H0 C) as N.
  assert (fp_err E = 0) by (apply (C67_zero (calculateT eta_exact) 0 two_sectors 0 fp_sector 0 1 (fun _ => 0) 1 fp_pt fp_m fp_sm fp_sg E (fp_exact E)); eauto). lra.
Qed.
Lemma free_gap : forall E1 E2 n, fp_tmax E1 = 1 -> fp_hill n E2 -> E1 < E2 -> E1 + 2 / 100000000 * Rmax 1 (Rabs E1) < E2.
Proof.
  intros E1 E2 n H1 H2 L. apply free_one in H1. subst E1. pose proof pi_sq as PS. pose proof (free_none E2 n H2 ltac:(lra)) as L4. rewrite (Rabs_right (PI * PI)) by lra. rewrite Rmax_right by lra. lra.
Qed.
Lemma free_lows : exists X, forall E, E <= X -> fp_tmin E <= 0 /\ fp_tmax E <= 1.
Proof.
  exists (-1). intros E HE. pose proof (free_low E HE) as T. split; [exact T|]. left. apply (tmax_one (calculateT eta_exact) 0 two_sectors 0 fp_sector 0 1 (fun _ => 0) 1 fp_pt fp_m fp_sm fp_sg fp_exact E T).
Qed.
Lemma free_highs : forall N : Z, exists X, forall E, X <= E -> IZR N + 2 <= fp_tmax E.
Proof. intro N. destruct (free_high (N + 2)) as [X HX]. exists X. intros E HE. rewrite <- plus_IZR. apply HX, HE. Qed.
(** C69 applies: the query by index terminates and lists an energy within 3e-8 of the lowest eigenvalue, 0 *)
Example C69_case : exists n out, (forall fuel, (n <= fuel)%nat -> periodic_byIndex fp_err fp_derr fp_tmin fp_tmax fuel false 0 5 = Ret out) /\
  exists E, In (0%Z, E, false) out /\ Rabs E <= 4 / 100000000.
Proof.
  assert (G : settles (fun k => periodic_byIndex fp_err fp_derr fp_tmin fp_tmax k false 0 5) (fun _ => True)).
  { unfold periodic_byIndex. eapply settles_bind.
    { destruct free_lows as [X HX]. apply (doubling_settles _ (-1) (- X)); [lra|]. intros E HE. apply Rltb_false. change (fp_tmin E <= 0). apply HX. lra. }
    intros eMin _. eapply settles_bind.
    { destruct (free_highs 5) as [X HX]. apply (doubling_settles _ 1 X); [lra|]. intros E HE. apply Rltb_false. change (IZR (5 + 2) <= fp_tmax E). rewrite plus_IZR. apply HX. lra. }
    intros eMax _.
    destruct (C43_total fp_err fp_derr fp_tmin fp_tmax eMin eMax 0 5 eps8) with (anti := false) as (n & out & G).
    - unfold eps8. cbn. lra.
    - exact free_lows.
    - apply free_highs.
    - lia.
    - exists n, out. auto. }
  destruct G as (n & r & _ & G). exists n, r. split; [exact G|].
  destruct (C69_ground (calculateT eta_exact) 0 two_sectors 0 fp_sector 0 1 (fun _ => 0) 1 fp_pt fp_m fp_sm fp_sg fp_exact eq_refl n 5 r ltac:(lia) (G n (le_n n)) free_gap) as (E0 & E & H0 & _ & HI & HC).
  exists E. split; [exact HI|].
  pose proof (C68_ground (calculateT eta_exact) two_sectors 0 fp_sector 0 1 (fun _ => 0) 1 fp_pt fp_m fp_sm fp_sg E0 0 (fp_exact E0) (fp_exact 0) H0 free_ground) as ->. rewrite Rminus_0_r in HC.
  unfold Rmax in HC. destruct (Rle_dec 1 (Rabs E)) in HC; lra.
Qed.
(** and two double eigenvalues 4 pi^2, 16 pi^2 have windows *)
Example C69_index_case : fp_hill 2 (4 * (PI * PI)) /\ (Z.max 1 0 <= 2 <= 5 + 1)%Z.
Proof. split; [|lia]. pose proof (free_eigen 1 ltac:(lia)) as H. change (Z.of_nat (2 * 1)) with 2%Z in H. change (INR (2 * 1)) with (1 + 1) in H. replace (4 * (PI * PI)) with ((1 + 1) * PI * ((1 + 1) * PI)) by ring. exact H. Qed.

(** C70: the query by energies can list an eigenvalue that does not exist: if the lowest eigenvalue is below the range but the
    energy at which the larger angle difference reaches 1 is above its left end, the search for index 0 has no zero to find,
    ends at that energy, and lists it.  Free particle, eigenvalues(5, 30). *)
Lemma trunc_ex : forall x, -1 < x < 3 -> exists b, oint (itrunc x) = Ret b /\ (0 <= b <= 2)%Z /\ (x < 1 -> b = 0%Z).
Proof.
  intros x Hx. assert (exists b, oint (itrunc x) = Ret b /\ (-1 <= b <= 3)%Z) as (b & Hb & Rb).
  { unfold itrunc. change (slt x (sofZ 0)) with (Rltb x 0). destruct (Rltb x 0) eqn:L; unfold ifloor, iceil, Conv_R, toint.
    - apply Rltb_true in L. assert (Rceil x = 0%Z) as -> by (apply P_SearchR.ceil_unique; cbn; lra). exists 0%Z. split; [reflexivity|lia].
    - apply Rltb_false in L. assert (-1 <= Rfloor x <= 3)%Z as HF.
      { unfold Rfloor. destruct (base_Int_part x). split; apply le_IZR; lra || (apply IZR_le; apply Z.lt_le_incl; apply lt_IZR; lra). }
      exists (Rfloor x). replace (int_ok (Rfloor x)) with true; [split; [reflexivity|exact HF]|]. symmetry. unfold int_ok. apply andb_true_iff. split; apply Z.leb_le; lia. }
  exists b. split; [exact Hb|]. destruct (trunc_spec x b Hb) as [T1 T2]. destruct (Rlt_le_dec x 0) as [L|L].
  - rewrite T2 by lra. split; [lia|auto].
  - specialize (T1 L). assert (b < 3)%Z by (apply lt_IZR; lra). assert (-1 < b)%Z by (apply lt_IZR; lra). split; [lia|]. intros L1. assert (b < 1)%Z by (apply lt_IZR; lra). lia.
Qed.
Theorem C70_phantom_refuted : exists n0 out E,
  (forall fuel, (n0 <= fuel)%nat -> periodic_eigenvalues fp_err fp_derr fp_tmin fp_tmax fuel false 5 30 = Ret out) /\
  In (0%Z, E, false) out /\ Rabs (E - PI * PI) <= 1 / 1000000 /\
  (forall E' n, fp_hill n E' -> ~ 5 <= E' <= 30).
Proof.
  pose proof pi_sq as PS.
  assert (fp_tmax 5 < 1) as T5.
  { destruct (Rlt_le_dec (fp_tmax 5) 1) as [|C]; [assumption|exfalso]. pose proof (fp_window _ _ free_ground) as [_ W0]. cbn in W0.
    destruct (level_one (calculateT eta_exact) 0 two_sectors 0 fp_sector 0 1 (fun _ => 0) 1 fp_pt fp_m fp_sm fp_sg fp_exact 0 5 ltac:(lra) ltac:(unfold fp_tmax in W0; lra) C) as (E1 & I1 & H1). apply free_one in H1. lra. }
  assert (fp_tmax 30 < 3) as T30.
  { destruct (Rlt_le_dec (fp_tmax 30) 3) as [|C]; [assumption|exfalso]. destruct C69_index_case as [H2 _]. pose proof (fp_window _ _ H2) as [_ W2].
    pose proof (fp_rmax 30 (4 * (PI * PI)) 3%Z 30 (4 * (PI * PI)) ltac:(lra) ltac:(lra) ltac:(lra) C). lra. }
  pose proof (fp_order 5) as O5. pose proof (fp_order 30) as O30.
  destruct (trunc_ex (fp_tmin 5) ltac:(lra)) as (a & Ea & _ & Ra). specialize (Ra ltac:(lra)). subst a.
  destruct (trunc_ex (fp_tmax 30) ltac:(lra)) as (b & Eb & Rb & _).
  destruct (C43_total fp_err fp_derr fp_tmin fp_tmax 5 30 (0 - 1) (b + 1) eps8) with (anti := false) as (n0 & out & G); [unfold eps8; cbn; lra|exact free_lows|apply free_highs|lia|].
  exists n0, out. 
  assert (exists E, In (0%Z, E, false) out /\ Rabs (E - PI * PI) <= 1 / 1000000) as (E & HI & HE).
  { pose proof (G n0 (le_n n0)) as H. unfold eigenpairsHelper in H. cbv zeta in H. change (0 - 1 - Z.rem (0 - 1) 2 + 0)%Z with 0%Z in H. change (0 =? 0)%Z with true in H. cbv iota in H.
    destruct (stepping _ _ _ _ 30) as [highest| | |] eqn:S0; try discriminate. cbn [bind] in H.
    apply stepping_up in S0; [|cbn; lra]. destruct S0 as [C0 L0]. apply Rltb_false in C0. unfold findHigh in C0. change (0 <= fp_tmax highest - IZR (b + 1 + 1) - 1) in C0.
    assert (1 <= fp_tmax highest) as Th. { assert (0 <= IZR (b + 1 + 1)) by (apply (IZR_le 0); lia). lra. }
    assert (forall fuel', stepping fuel' ssub (fun E => slt (sofZ 0) (findHigh fp_tmax 0 E)) (sofZ 1) 5 = Ret 5) as St2.
    { intro fuel'. destruct fuel'; cbn [stepping]; (replace (slt _ _) with false; [reflexivity|]); symmetry; apply Rltb_false; unfold findHigh; change (fp_tmax 5 - 0 - 1 <= 0); lra. }
    rewrite St2 in H. cbn [bind] in H.
    destruct (binarySearch _ 5 highest _ _ _) as [high| | |] eqn:B1; try discriminate. cbn [bind] in H.
    destruct (binarySearch _ 5 high _ _ _) as [E| | |] eqn:B2; try discriminate. cbn [bind] in H.
    destruct (pairs_loop _ _ _ _ _ _ _ _ _ _ _ _ _ _) as [rest| | |] eqn:Q; try discriminate. cbn [bind] in H. injection H as <-.
    set (eps := 1 / 100000000). change (eps8 : R) with eps in *. assert (0 < eps <= 1) as He by (unfold eps; lra).
    destruct (bs_final _ eps 5 highest _ _ _ (proj1 He) ltac:(lra) B1) as (a' & b' & Eh & W' & Ia' & Ib' & Ga' & Gb').
    unfold findHigh in Ga', Gb'. change (a' = 5 \/ 0 < (fp_tmax 5 - 0 - 1) * (fp_tmax a' - 0 - 1)) in Ga'. change (b' = highest \/ (fp_tmax 5 - 0 - 1) * (fp_tmax b' - 0 - 1) <= 0) in Gb'.
    assert (fp_tmax a' < 1) as Ta by (destruct Ga' as [-> |Z]; [exact T5|nra]).
    assert (1 <= fp_tmax b') as Tb by (destruct Gb' as [-> |Z]; [lra|nra]).
    destruct (level_one (calculateT eta_exact) 0 two_sectors 0 fp_sector 0 1 (fun _ => 0) 1 fp_pt fp_m fp_sm fp_sg fp_exact a' b' ltac:(lra) Ta Tb) as (E1 & I1 & L1).
    apply free_one in L1. subst E1. rewrite (Rabs_right a') in W' by lra. rewrite (Rmax_right 1 a') in W' by lra.
    assert (b' - a' <= 1 / 1000000) as W2 by (unfold eps in W'; lra).
    destruct (bs_final _ eps 5 high _ _ _ (proj1 He) ltac:(lra) B2) as (a & b0 & Ee & W & Ia & Ib & Ga & Gb).
    pose proof (free_neg 5 ltac:(lra) ltac:(lra)) as N5.
    assert (b0 = high) as Eb0. { destruct Gb as [|Gb]; [assumption|exfalso]. pose proof (free_neg b0 ltac:(lra) ltac:(lra)) as Nb. pose proof (Rmult_lt_0_compat (- fp_err 5) (- fp_err b0) ltac:(lra) ltac:(lra)). lra. }
    rewrite (Rabs_right a) in W by lra. rewrite (Rmax_right 1 a) in W by lra.
    assert (b0 - a <= 1 / 1000000) as W3 by (unfold eps in W; lra).
    exists E. split; [|apply Rabs_le; lra]. apply in_or_app. left. unfold addToResult. replace ((0 <? 0 - 1)%Z || (b + 1 <=? 0)%Z || slt E 5 || sle 30 E) with false; [left; reflexivity|].
    symmetry. rewrite !orb_false_iff. split; [split; [split; [reflexivity|apply Z.leb_gt; lia]|apply Rltb_false; lra]|apply Rleb_false; lra]. }
  exists E. split; [|split; [exact HI|split; [exact HE|]]].
  - intros fuel Hf. unfold periodic_eigenvalues. rewrite Ea, Eb. cbn [bind]. apply G, Hf.
  - intros E' n H' I'. pose proof (free_none E' n H' ltac:(lra)). lra.
Qed.

(** The hypotheses of C67 and C68 are met by the free particle: exact steps at every energy, eigenvalues 0 (index 0) and 4 pi^2
    (index 2). *)
Example C67_case : (forall E, hill_exact (calculateT eta_exact) (fun _ => 0) 0 1 two_sectors (smax fp_sector) E) /\ fp_hill 0 0 /\ fp_hill 2 (4 * (PI * PI)) /\
  fp_err (4 * (PI * PI)) = 0 /\ 1 < fp_tmin (4 * (PI * PI)) /\ fp_tmax (4 * (PI * PI)) < 3 /\ fp_err (PI * PI) = -8.
Proof.
  split; [exact fp_exact|]. split; [exact free_ground|]. pose proof (proj1 C69_index_case) as H2. split; [exact H2|].
  pose proof (fp_window _ _ H2) as [W1 W2]. pose proof PIpos as HP. split; [|split; [lra|split; [lra|]]].
  - replace (4 * (PI * PI)) with ((2 * PI) * (2 * PI)) by ring. rewrite free_err by lra. rewrite cos_2PI. ring.
  - rewrite free_err by lra. rewrite cos_PI. ring.
Qed.

Print Assumptions C67_zero.
Print Assumptions C67_parity.
Print Assumptions C67_window.
Print Assumptions C67_sign.
Print Assumptions C67_monotone.
Print Assumptions C67_order.
Print Assumptions C67_continuous.
Print Assumptions C68_order.
Print Assumptions C68_index.
Print Assumptions C68_pairs.
Print Assumptions C68_below.
Print Assumptions C68_ground.
Print Assumptions C69_range.
Print Assumptions C69_index.
Print Assumptions C69_ground.
Print Assumptions C70_phantom_refuted.
