(** Properties C25-C31 and C23 (search part): the eigenvalue search of Matslise. *)
From Coq Require Import String ZArith QArith Reals List Bool Lia Lra Permutation Sorted.
From Verif Require Import Base M_Sectors M_Core T_Core M_Search S_Search P_Search P_SearchR.
Import ListNotations.

(** ** C25 : any scalar type (doubles included), any matching-error function *)
Theorem C25_terminates {T} `{Scalar T} `{Conv T} (me : T -> bool -> T * T * T) tol Emin Emax Imin Imax :
  exists out, out <> Fuel /\
    forall fuel, (2 ^ 32 <= Z.of_nat fuel)%Z -> computeEigenvalues me tol fuel Emin Emax Imin Imax = out.
Proof.
  exists (computeEigenvalues me tol (Z.to_nat (2 ^ 32)) Emin Emax Imin Imax).
  set (n := Z.to_nat (2 ^ 32)). assert (Hn : (Z.of_nat n = 2 ^ 32)%Z) by (apply Z2Nat.id; discriminate).
  clearbody n. split.
  - apply compute_not_fuel. lia.
  - intros fuel Hf. apply compute_mono; [lia|]. apply compute_not_fuel. lia.
Qed.
(** Number of matching-error evaluations: 2 at the ends, one per cut, at most 21 per leaf. *)
Theorem C25_evaluations {T} `{Scalar T} `{Conv T} (me : T -> bool -> T * T * T) Emin Emax Imin Imax fuel leaves cuts :
  (2 ^ 32 <= Z.of_nat fuel)%Z ->
  bisect me fuel Imin Imax [mkItem Emin (ang me Emin) Emax (ang me Emax) 0] = Ret (leaves, cuts) ->
  (Z.of_nat (length leaves) <= 2 ^ 31 /\ Z.of_nat (length cuts) <= 2 ^ 31 - 1)%Z.
Proof.
  intros Hf Hb. destruct (bisect_bounds me fuel Imin Imax [mkItem Emin (ang me Emin) Emax (ang me Emax) 0]) as [_ B].
  - apply Forall_cons; [cbn [dep_]; lia|apply Forall_nil].
  - unfold sumZ, wt; cbn [fold_right dep_]. change (Z.min 31 0) with 0%Z. lia.
  - specialize (B _ Hb). cbn [fst snd] in B. unfold sumZ, wl, wp in B; cbn [fold_right dep_] in B. change (Z.min 31 0) with 0%Z in B. lia.
Qed.

(** ** C26 : any scalar type *)
Theorem C26_sorted {T} `{Scalar T} `{Conv T} (me : T -> bool -> T * T * T) tol fuel Emin Emax Imin Imax l :
  computeEigenvalues me tol fuel Emin Emax Imin Imax = Ret l ->
  StronglySorted (fun a b => (fst a <= fst b)%Z) l /\ Forall (fun p => (0 <= fst p)%Z) l /\
  exists leaves cuts roots,
    bisect me fuel Imin Imax [mkItem Emin (ang me Emin) Emax (ang me Emax) 0] = Ret (leaves, cuts) /\
    Forall2 (fun lf root => newton me tol (lc lf) true = Ret root) leaves roots /\ Permutation l roots.
Proof.
  unfold computeEigenvalues. destruct (Imin <? 0)%Z; [discriminate|]. destruct (Imax <? Imin)%Z; [discriminate|].
  destruct (bisect me fuel Imin Imax _) as [[lv pr]|s|s|]; cbn [bind]; try discriminate. cbn [fst].
  destruct (mapM _ lv) as [evs|s|s|] eqn:Em; cbn [bind]; try discriminate.
  intros K; injection K as <-. apply mapM_ret in Em. split; [apply isort_sorted|]. split.
  - rewrite isort_perm. clear -Em. induction Em; constructor; auto. eapply newton_index; eauto.
  - exists lv, pr, evs. split; [reflexivity|]. split; [exact Em|]. apply isort_perm.
Qed.
(** Over the reals the order is lexicographic: equal indices are sorted by energy. *)
Definition lex_le (a b : Z * R) : Prop := (fst a < fst b)%Z \/ (fst a = fst b /\ (snd a <= snd b)%R).
Lemma lex_trans a b c : lex_le a b -> lex_le b c -> lex_le a c.
Proof. unfold lex_le. intros [A|[A A']] [B|[B B']]; try (left; lia). right. split; [lia|lra]. Qed.
Lemma isort_lex (l : list (Z * R)) : StronglySorted lex_le (isort l).
Proof.
  assert (I : forall x (l : list (Z * R)), StronglySorted lex_le l -> StronglySorted lex_le (insert x l)).
  { intros x. induction 1 as [|y r S IH F]; cbn [insert]; [repeat constructor|].
    destruct (pair_lt x y) eqn:E; unfold pair_lt in E.
    - assert (L : lex_le x y). { unfold lex_le. destruct (Z.ltb_spec (fst x) (fst y)); [lia|]. destruct (Z.ltb_spec (fst y) (fst x)); [discriminate E|]. simpl in E. apply Rltb_true in E. right; split; [lia|lra]. }
      constructor; [constructor; auto|]. constructor; auto. eapply Forall_impl; [|exact F]. intros; eapply lex_trans; eauto.
    - assert (L : lex_le y x). { unfold lex_le. destruct (Z.ltb_spec (fst x) (fst y)); [discriminate E|]. destruct (Z.ltb_spec (fst y) (fst x)); [lia|]. simpl in E. apply Rltb_false in E. right; split; [lia|lra]. }
      constructor; auto. rewrite insert_perm. constructor; auto. }
  induction l; cbn [isort]; [constructor|]. apply I; auto.
Qed.
Theorem C26_lexicographic (me : R -> bool -> R * R * R) tol fuel Emin Emax Imin Imax l :
  computeEigenvalues me tol fuel Emin Emax Imin Imax = Ret l -> StronglySorted lex_le l.
Proof.
  unfold computeEigenvalues. destruct (Imin <? 0)%Z; [discriminate|]. destruct (Imax <? Imin)%Z; [discriminate|].
  destruct (bisect me fuel Imin Imax _) as [[lv pr]|s|s|]; cbn [bind]; try discriminate. cbn [fst].
  destruct (mapM _ lv) as [evs|s|s|]; cbn [bind]; try discriminate. intros K; injection K as <-. apply isort_lex.
Qed.

(** ** C27 *)
Open Scope R_scope.
Definition initial (me : R -> bool -> R * R * R) (Emin Emax : R) : list (item R) :=
  [mkItem Emin (ang me Emin) Emax (ang me Emax) 0%Z].
Definition inside (lf : leaf R) (E : R) : Prop := ia_ (lit lf) < E < ib_ (lit lf).
Definition outside (lf : leaf R) (E : R) : Prop := E <= ia_ (lit lf) \/ ib_ (lit lf) <= E.

Lemma filter_one {A} (p : A -> bool) l : length (filter p l) = 1%nat ->
  exists l1 x l2, l = l1 ++ x :: l2 /\ p x = true /\ Forall (fun y => p y = false) (l1 ++ l2).
Proof.
  induction l as [|a l IH]; cbn [filter]; [discriminate|]. destruct (p a) eqn:E.
  - cbn [length]. intros K. exists [], a, l. repeat split; auto. cbn [app]. rewrite Forall_forall. intros y Hy.
    destruct (p y) eqn:Ey; auto. exfalso. assert (In y (filter p l)) by (apply filter_In; auto).
    destruct (filter p l); [auto|cbn in K; lia].
  - intros K. destruct (IH K) as (l1 & x & l2 & -> & B & C). exists (a :: l1), x, l2. repeat split; auto. constructor; auto.
Qed.
Lemma spans_inside me Emin Emax it k E : rises_through_integers (ang me) Emin Emax -> good me Emin Emax it ->
  Emin <= E <= Emax -> eigenvalue_of (ang me) k E -> (spans it k = true <-> ia_ it < E < ib_ it).
Proof.
  intros HI ((Ha & Hab & Hb) & Eta & Etb & _) HE Ek. unfold eigenvalue_of in Ek. rewrite spans_true, Eta, Etb, <- Ek.
  split.
  - intros [L1 L2]. split.
    + destruct (Rlt_le_dec (ia_ it) E) as [|L]; [assumption|exfalso]. destruct L as [L|L]; [|rewrite L in L1; lra].
      assert (IZR k < ang me (ia_ it)) by (apply (HI k E); lra). lra.
    + destruct (Rlt_le_dec E (ib_ it)) as [|L]; [assumption|exfalso]. destruct L as [L|L]; [|rewrite L in L2; lra].
      assert (IZR k < ang me E) by (apply (HI k (ib_ it)); lra). lra.
  - intros [L1 L2]. rewrite Ek. split.
    + destruct (Rlt_le_dec (ang me (ia_ it)) (IZR k)) as [|L]; [assumption|exfalso]. assert (IZR k < ang me E) by (apply (HI k (ia_ it)); lra). lra.
    + apply (HI k E); lra.
Qed.
Theorem C27_brackets (me : R -> bool -> R * R * R) Emin Emax Imin Imax fuel :
  let F := ang me in
  Emin < Emax -> rises_through_integers F Emin Emax -> continuous_on F Emin Emax ->
  fits_int (F Emin) -> fits_int (F Emax) -> separated F Emin Emax ((Emax - Emin) / 2 ^ 31) ->
  nonint (F Emin) -> nonint (F Emax) -> (2 ^ 32 <= Z.of_nat fuel)%Z ->
  exists leaves cuts, bisect me fuel Imin Imax (initial me Emin Emax) = Ret (leaves, cuts) /\
    Forall (fun c => Emin <= c <= Emax) cuts /\
    (Forall (fun c => nonint (F c)) cuts ->
     (* every eigenvalue in range lies in exactly one leaf *)
     (forall k E, (Imin <= k < Imax)%Z -> Emin < E < Emax -> eigenvalue_of F k E ->
        exists l1 lf l2, leaves = l1 ++ lf :: l2 /\ inside lf E /\ Forall (fun lf' => outside lf' E) (l1 ++ l2)) /\
     (* every leaf holds exactly one eigenvalue, which is in range *)
     Forall (fun lf => (Emin <= ia_ (lit lf) /\ ia_ (lit lf) < lc lf < ib_ (lit lf) /\ ib_ (lit lf) <= Emax) /\
        exists k E, (Imin <= k < Imax)%Z /\ inside lf E /\ eigenvalue_of F k E /\
          forall j E', inside lf E' -> eigenvalue_of F j E' -> j = k /\ E' = E) leaves).
Proof.
  intros F Hlt HI HC Hf1 Hf2 HS N1 N2 Hfuel.
  assert (G : Forall (good me Emin Emax) (initial me Emin Emax)).
  { apply Forall_cons; [|apply Forall_nil]. unfold good; cbn [ia_ ib_ ta_ tb_ dep_]. split; [lra|].
    split; [reflexivity|]. split; [reflexivity|]. split; [exact N1|]. split; [exact N2|]. split; [lia|].
    intros _. simpl. lra. }
  assert (Hw : (sumZ wt (initial me Emin Emax) <= Z.of_nat fuel)%Z).
  { unfold initial, sumZ, wt; cbn [fold_right dep_]. change (Z.min 31 0) with 0%Z. lia. }
  destruct (bisect_weak me Emin Emax HI Hf1 Hf2 fuel Imin Imax (initial me Emin Emax)) as ([leaves cuts] & Eb & Hc); auto.
  { eapply Forall_impl; [|exact G]. apply good_weak. }
  exists leaves, cuts. split; [exact Eb|]. split; [exact Hc|]. intros Nc.
  destruct (bisect_good me Emin Emax HI Hf1 Hf2 Hlt fuel Imin Imax (initial me Emin Emax) (leaves, cuts) G HC HS Eb Nc) as [B1 B2].
  cbn [fst] in B1, B2. rewrite Forall_forall in B1. split.
  - intros k E Hk HE Ek. specialize (B2 k Hk).
    assert (I1 : cnt k (initial me Emin Emax) = 1%nat).
    { unfold initial. rewrite cnt_cons. assert (S : spans (mkItem Emin (ang me Emin) Emax (ang me Emax) 0%Z) k = true).
      { apply spans_true; cbn [ta_ tb_]. unfold eigenvalue_of, F in Ek. split.
        - destruct (Rlt_le_dec (ang me Emin) (IZR k)) as [|L]; [assumption|exfalso]. assert (IZR k < ang me E) by (apply (HI k Emin); unfold F; lra). lra.
        - apply (HI k E); unfold F; lra. }
      rewrite S. reflexivity. }
    rewrite I1 in B2. unfold cnt in B2.
    assert (B3 : length (filter (fun lf => spans (lit lf) k) leaves) = 1%nat).
    { rewrite <- B2. clear. induction leaves as [|a l IH]; [reflexivity|]. cbn [filter map]. destruct (spans (lit a) k); cbn [length]; lia. }
    destruct (filter_one _ _ B3) as (l1 & lf & l2 & El & S & O). exists l1, lf, l2. split; [exact El|].
    assert (Gl : forall x, In x leaves -> good me Emin Emax (lit x)) by (intros x Hx; exact (proj1 (B1 x Hx))).
    split.
    + unfold inside. apply (spans_inside me Emin Emax (lit lf) k E); auto; [|lra]. apply Gl. rewrite El. apply in_or_app. right; left; reflexivity.
    + rewrite Forall_forall in O |- *. intros x Hx. specialize (O x Hx).
      assert (Ix : In x leaves). { rewrite El. apply in_app_or in Hx. apply in_or_app. destruct Hx; [left|right; right]; auto. }
      unfold outside. destruct (Rlt_dec (ia_ (lit x)) E); [|left; lra]. destruct (Rlt_dec E (ib_ (lit x))); [|right; lra].
      exfalso. assert (spans (lit x) k = true) by (apply (spans_inside me Emin Emax (lit x) k E); auto; lra). congruence.
  - rewrite Forall_forall. intros lf Hl. destruct (B1 lf Hl) as (Gl & Hcl & Hone & Hr). pose proof Gl as ((Ha & Hab & Hb) & Eta & Etb & M1 & M2 & _).
    split; [lra|]. exists (Rceil (ta_ (lit lf))).
    destruct (crossing me Emin Emax (lit lf) (Rceil (ta_ (lit lf))) HC Gl) as (E & HE & Ek).
    { apply spans_ceil; auto. lia. }
    exists E. split; [lia|]. split; [exact HE|]. split; [exact Ek|].
    intros j E' HE' Ej. unfold inside in HE'.
    assert (Sj : spans (lit lf) j = true) by (apply (spans_inside me Emin Emax (lit lf) j E'); auto; lra).
    apply spans_ceil in Sj; auto. assert (Jk : j = Rceil (ta_ (lit lf))) by lia. split; auto. subst j.
    unfold eigenvalue_of in *. destruct (Rtotal_order E' E) as [L|[L|L]]; auto; exfalso.
    + assert (IZR (Rceil (ta_ (lit lf))) < ang me E) by (apply (HI _ E'); unfold F in *; lra). unfold F in *. lra.
    + assert (IZR (Rceil (ta_ (lit lf))) < ang me E') by (apply (HI _ E); unfold F in *; lra). unfold F in *. lra.
Qed.

(** When Newton polishing from each leaf converges to the eigenvalue of that leaf, the returned list
    is exactly the list of all eigenvalues in range, each once. *)
Theorem C27_complete (me : R -> bool -> R * R * R) tol Emin Emax Imin Imax fuel leaves cuts :
  let F := ang me in
  Emin < Emax -> rises_through_integers F Emin Emax -> continuous_on F Emin Emax ->
  fits_int (F Emin) -> fits_int (F Emax) -> separated F Emin Emax ((Emax - Emin) / 2 ^ 31) ->
  nonint (F Emin) -> nonint (F Emax) -> (2 ^ 32 <= Z.of_nat fuel)%Z -> (0 <= Imin <= Imax)%Z ->
  bisect me fuel Imin Imax (initial me Emin Emax) = Ret (leaves, cuts) ->
  Forall (fun c => nonint (F c)) cuts ->
  (forall lf k E, In lf leaves -> inside lf E -> eigenvalue_of F k E -> newton me tol (lc lf) true = Ret (k, E)) ->
  exists l, computeEigenvalues me tol fuel Emin Emax Imin Imax = Ret l /\
    (forall k E, In (k, E) l <-> (Imin <= k < Imax)%Z /\ Emin < E < Emax /\ eigenvalue_of F k E) /\
    StronglySorted (fun a b => (fst a < fst b)%Z) l.
Proof.
  intros F Hlt HI HC Hf1 Hf2 HS N1 N2 Hfuel HII Hb Nc HN.
  destruct (C27_brackets me Emin Emax Imin Imax fuel Hlt HI HC Hf1 Hf2 HS N1 N2 Hfuel) as (lv & ct & Eb & _ & B).
  assert (lv = leaves /\ ct = cuts) as [-> ->] by (rewrite Hb in Eb; injection Eb; auto).
  destruct (B Nc) as [B1 B2]. clear Eb B.
  assert (M : exists roots, Forall2 (fun lf root => newton me tol (lc lf) true = Ret root) leaves roots /\
     forall n lf root, nth_error leaves n = Some lf -> nth_error roots n = Some root -> inside lf (snd root) /\ eigenvalue_of F (fst root) (snd root) /\ (Imin <= fst root < Imax)%Z).
  { clear B1 Hb. induction leaves as [|lf r IH].
    - exists []. split; [constructor|]. intros [|n] ? ?; discriminate.
    - inversion B2 as [|? ? A1 A2]; subst. destruct IH as (roots & R1 & R2); auto.
      { intros; eapply HN; eauto. right; auto. }
      destruct A1 as (_ & k & E & Hk & HE & Ek & _). exists ((k, E) :: roots). split.
      + constructor; auto. eapply HN; eauto. left; auto.
      + intros [|n] lf' root; cbn [nth_error]; [|apply R2]. intros K1 K2; injection K1 as <-; injection K2 as <-. auto. }
  destruct M as (roots & R1 & R2).
  exists (isort roots). split.
  { unfold computeEigenvalues. destruct (Z.ltb_spec Imin 0); [lia|]. destruct (Z.ltb_spec Imax Imin); [lia|].
    fold (initial me Emin Emax). rewrite Hb. cbn [bind fst].
    assert (Em : mapM (fun lf : leaf R => newton me tol (lc lf) true) leaves = Ret roots) by (apply mapM_ret; exact R1).
    rewrite Em. reflexivity. }
  assert (Len : length leaves = length roots) by (clear -R1; induction R1; cbn; auto).
  assert (Hin : forall k E, In (k, E) roots <-> (Imin <= k < Imax)%Z /\ Emin < E < Emax /\ eigenvalue_of F k E).
  { intros k E. split.
    - intros Hi. apply In_nth_error in Hi. destruct Hi as [n Hn].
      destruct (nth_error leaves n) as [lf|] eqn:El.
      2:{ apply nth_error_None in El. assert (n < length roots)%nat by (apply nth_error_Some; congruence). lia. }
      destruct (R2 n lf (k, E) El Hn) as (I1 & I2 & I3). cbn [fst snd] in *. split; auto. split; auto.
      rewrite Forall_forall in B2. destruct (B2 lf (nth_error_In _ _ El)) as (A & _). unfold inside in I1. lra.
    - intros (Hk & HE & Ek). destruct (B1 k E Hk HE Ek) as (l1 & lf & l2 & El & I1 & _).
      assert (Hl : In lf leaves) by (rewrite El; apply in_or_app; right; left; auto).
      apply In_nth_error in Hl. destruct Hl as [n Hn].
      destruct (nth_error roots n) as [root|] eqn:Er.
      2:{ apply nth_error_None in Er. assert (n < length leaves)%nat by (apply nth_error_Some; congruence). lia. }
      destruct (R2 n lf root Hn Er) as (J1 & J2 & J3).
      assert (Hlf := nth_error_In _ _ Hn).
      pose proof (HN lf k E Hlf I1 Ek) as Q1. pose proof (HN lf (fst root) (snd root) Hlf J1 J2) as Q2.
      rewrite Q1 in Q2. injection Q2 as -> ->. rewrite <- surjective_pairing. eapply nth_error_In; eauto. }
  assert (ND : NoDup (map fst roots)).
  { apply NoDup_nth_error. intros i j Hi E. rewrite map_length in Hi.
    rewrite !nth_error_map in E.
    destruct (nth_error roots i) as [ri|] eqn:Ei; [|apply nth_error_None in Ei; lia].
    destruct (nth_error roots j) as [rj|] eqn:Ej; [|discriminate E]. cbn [option_map] in E. injection E as E.
    destruct (nth_error leaves i) as [li|] eqn:Li; [|apply nth_error_None in Li; lia].
    destruct (nth_error leaves j) as [lj|] eqn:Lj.
    2:{ apply nth_error_None in Lj. assert (j < length roots)%nat by (apply nth_error_Some; congruence). lia. }
    destruct (R2 i li ri Li Ei) as (P1 & P2 & P3). destruct (R2 j lj rj Lj Ej) as (Q1 & Q2 & Q3).
    assert (W : Emin < snd ri < Emax /\ Emin < snd rj < Emax).
    { rewrite Forall_forall in B2. destruct (B2 li (nth_error_In _ _ Li)) as (A & _). destruct (B2 lj (nth_error_In _ _ Lj)) as (A' & _).
      unfold inside in *. lra. }
    assert (Eq : snd ri = snd rj).
    { unfold eigenvalue_of in *. rewrite E in P2. destruct (Rtotal_order (snd ri) (snd rj)) as [L|[L|L]]; auto; exfalso.
      - assert (IZR (fst rj) < F (snd rj)) by (apply (HI _ (snd ri)); lra). lra.
      - assert (IZR (fst rj) < F (snd ri)) by (apply (HI _ (snd rj)); lra). lra. }
    destruct (B1 (fst ri) (snd ri) P3 ltac:(lra) P2) as (l1 & lf & l2 & El & I1 & O). rewrite Forall_forall in O.
    assert (Uniq : forall n x, nth_error leaves n = Some x -> inside x (snd ri) -> n = length l1).
    { intros n x Hn Hx. destruct (Nat.lt_trichotomy n (length l1)) as [L|[L|L]]; auto; exfalso.
      - rewrite El, nth_error_app1 in Hn by lia. apply nth_error_In in Hn. specialize (O x (in_or_app _ _ _ (or_introl Hn))). unfold inside, outside in *. lra.
      - rewrite El, nth_error_app2 in Hn by lia. replace (n - length l1)%nat with (S (n - length l1 - 1)) in Hn by lia. cbn [nth_error] in Hn. apply nth_error_In in Hn. specialize (O x (in_or_app _ _ _ (or_intror Hn))). unfold inside, outside in *. lra. }
    rewrite (Uniq i li Li P1). rewrite Eq in Uniq. symmetry. eapply Uniq; eauto. }
  split.
  - intros k E. rewrite <- Hin. split; intros Hi; [apply (Permutation_in _ (isort_perm roots)); exact Hi|apply (Permutation_in _ (Permutation_sym (isort_perm roots))); exact Hi].
  - assert (S := isort_sorted roots). assert (ND' : NoDup (map fst (isort roots))).
    { eapply Permutation_NoDup; [|exact ND]. apply Permutation_map. symmetry. apply isort_perm. }
    revert S ND'. generalize (isort roots). clear. induction l as [|a l IH]; intros S N; constructor.
    + apply IH; [inversion S; auto|inversion N; auto].
    + inversion S as [|? ? S' F']; inversion N as [|? ? N' _]; subst. rewrite Forall_forall in *. intros x Hx. specialize (F' x Hx).
      assert (fst a <> fst x). { intros K. apply N'. rewrite K. apply in_map. auto. } lia.
Qed.

(** The same when newtonIteration returns the right index but only an energy within [eps] of the eigenvalue: one entry for
    every eigenvalue in range, with its index, in increasing order. *)
Theorem C27_approximate (me : R -> bool -> R * R * R) tol eps Emin Emax Imin Imax fuel leaves cuts :
  let F := ang me in
  Emin < Emax -> rises_through_integers F Emin Emax -> continuous_on F Emin Emax ->
  fits_int (F Emin) -> fits_int (F Emax) -> separated F Emin Emax ((Emax - Emin) / 2 ^ 31) ->
  nonint (F Emin) -> nonint (F Emax) -> (2 ^ 32 <= Z.of_nat fuel)%Z -> (0 <= Imin <= Imax)%Z ->
  bisect me fuel Imin Imax (initial me Emin Emax) = Ret (leaves, cuts) ->
  Forall (fun c => nonint (F c)) cuts ->
  (forall lf k E, In lf leaves -> inside lf E -> eigenvalue_of F k E -> exists E', newton me tol (lc lf) true = Ret (k, E') /\ Rabs (E' - E) <= eps) ->
  exists l, computeEigenvalues me tol fuel Emin Emax Imin Imax = Ret l /\
    (forall k E, (Imin <= k < Imax)%Z -> Emin < E < Emax -> eigenvalue_of F k E -> exists E', In (k, E') l /\ Rabs (E' - E) <= eps) /\
    (forall k E', In (k, E') l -> (Imin <= k < Imax)%Z /\ exists E, Emin < E < Emax /\ eigenvalue_of F k E /\ Rabs (E' - E) <= eps) /\
    StronglySorted (fun a b => (fst a < fst b)%Z) l.
Proof.
  intros F Hlt HI HC Hf1 Hf2 HS N1 N2 Hfuel HII Hb Nc HN.
  destruct (C27_brackets me Emin Emax Imin Imax fuel Hlt HI HC Hf1 Hf2 HS N1 N2 Hfuel) as (lv & ct & Eb & _ & B).
  assert (lv = leaves /\ ct = cuts) as [-> ->] by (rewrite Hb in Eb; injection Eb; auto).
  destruct (B Nc) as [B1 B2]. clear Eb B.
  assert (M : exists roots, Forall2 (fun lf root => newton me tol (lc lf) true = Ret root) leaves roots /\
     forall n lf root, nth_error leaves n = Some lf -> nth_error roots n = Some root ->
       exists E, inside lf E /\ Emin < E < Emax /\ eigenvalue_of F (fst root) E /\ (Imin <= fst root < Imax)%Z /\ Rabs (snd root - E) <= eps).
  { clear B1 Hb. induction leaves as [|lf r IH].
    - exists []. split; [constructor|]. intros [|n] ? ?; discriminate.
    - inversion B2 as [|? ? A1 A2]; subst. destruct IH as (roots & R1 & R2); auto.
      { intros; eapply HN; eauto. right; auto. }
      destruct A1 as (A0 & k & E & Hk & HE & Ek & _). destruct (HN lf k E (or_introl eq_refl) HE Ek) as (E' & Q1 & Q2). exists ((k, E') :: roots). split.
      + constructor; auto.
      + intros [|n] lf' root; cbn [nth_error]; [|apply R2]. intros K1 K2; injection K1 as <-; injection K2 as <-. exists E. cbn [fst snd]. repeat split; auto; unfold inside in HE; lra || lia. }
  destruct M as (roots & R1 & R2).
  exists (isort roots). split.
  { unfold computeEigenvalues. destruct (Z.ltb_spec Imin 0); [lia|]. destruct (Z.ltb_spec Imax Imin); [lia|].
    fold (initial me Emin Emax). rewrite Hb. cbn [bind fst].
    assert (Em : mapM (fun lf : leaf R => newton me tol (lc lf) true) leaves = Ret roots) by (apply mapM_ret; exact R1).
    rewrite Em. reflexivity. }
  assert (Len : length leaves = length roots) by (clear -R1; induction R1; cbn; auto).
  assert (Same : forall k E1 E2, Emin < E1 < Emax -> Emin < E2 < Emax -> eigenvalue_of F k E1 -> eigenvalue_of F k E2 -> E1 = E2).
  { unfold eigenvalue_of. intros k E1 E2 W1 W2 P1 P2. destruct (Rtotal_order E1 E2) as [L|[L|L]]; auto; exfalso.
    - assert (IZR k < F E2) by (apply (HI _ E1); lra). lra.
    - assert (IZR k < F E1) by (apply (HI _ E2); lra). lra. }
  assert (ND : NoDup (map fst roots)).
  { apply NoDup_nth_error. intros i j Hi E. rewrite map_length in Hi.
    rewrite !nth_error_map in E.
    destruct (nth_error roots i) as [ri|] eqn:Ei; [|apply nth_error_None in Ei; lia].
    destruct (nth_error roots j) as [rj|] eqn:Ej; [|discriminate E]. cbn [option_map] in E. injection E as E.
    destruct (nth_error leaves i) as [li|] eqn:Li; [|apply nth_error_None in Li; lia].
    destruct (nth_error leaves j) as [lj|] eqn:Lj.
    2:{ apply nth_error_None in Lj. assert (j < length roots)%nat by (apply nth_error_Some; congruence). lia. }
    destruct (R2 i li ri Li Ei) as (e & P1 & W1 & P2 & P3 & _). destruct (R2 j lj rj Lj Ej) as (e' & Q1 & W2 & Q2 & Q3 & _).
    assert (Eq : e = e') by (rewrite <- E in Q2; apply (Same (fst ri)); auto). subst e'.
    destruct (B1 (fst ri) e P3 W1 P2) as (l1 & lf & l2 & El & I1 & O). rewrite Forall_forall in O.
    assert (Uniq : forall n x, nth_error leaves n = Some x -> inside x e -> n = length l1).
    { intros n x Hn Hx. destruct (Nat.lt_trichotomy n (length l1)) as [L|[L|L]]; auto; exfalso.
      - rewrite El, nth_error_app1 in Hn by lia. apply nth_error_In in Hn. specialize (O x (in_or_app _ _ _ (or_introl Hn))). unfold inside, outside in *. lra.
      - rewrite El, nth_error_app2 in Hn by lia. replace (n - length l1)%nat with (S (n - length l1 - 1)) in Hn by lia. cbn [nth_error] in Hn. apply nth_error_In in Hn. specialize (O x (in_or_app _ _ _ (or_intror Hn))). unfold inside, outside in *. lra. }
    rewrite (Uniq i li Li P1). symmetry. eapply Uniq; eauto. }
  split; [|split].
  - intros k E Hk HE Ek. destruct (B1 k E Hk HE Ek) as (l1 & lf & l2 & El & I1 & _).
    assert (Hl : In lf leaves) by (rewrite El; apply in_or_app; right; left; auto). pose proof Hl as Hl'.
    apply In_nth_error in Hl. destruct Hl as [n Hn].
    destruct (nth_error roots n) as [root|] eqn:Er.
    2:{ apply nth_error_None in Er. assert (n < length leaves)%nat by (apply nth_error_Some; congruence). lia. }
    destruct (HN lf k E Hl' I1 Ek) as (E' & Q1 & Q2). exists E'. split; [|exact Q2].
    apply (Permutation_in _ (Permutation_sym (isort_perm roots))). apply (nth_error_In _ n). rewrite Er. f_equal.
    assert (newton me tol (lc lf) true = Ret root) as Q3; [|rewrite Q1 in Q3; injection Q3 as <-; reflexivity].
    clear -R1 Hn Er. revert n Hn Er. induction R1; intros [|n] Hn Er; cbn [nth_error] in *; try discriminate; [injection Hn as <-; injection Er as <-; assumption|eauto].
  - intros k E' Hi. apply (Permutation_in _ (isort_perm roots)) in Hi. apply In_nth_error in Hi as [n Hn].
    destruct (nth_error leaves n) as [lf|] eqn:El.
    2:{ apply nth_error_None in El. assert (n < length roots)%nat by (apply nth_error_Some; congruence). lia. }
    destruct (R2 n lf (k, E') El Hn) as (E & I1 & I2 & I3 & I4 & I5). cbn [fst snd] in *. split; [exact I4|]. exists E. auto.
  - assert (S := isort_sorted roots). assert (ND' : NoDup (map fst (isort roots))).
    { eapply Permutation_NoDup; [|exact ND]. apply Permutation_map. symmetry. apply isort_perm. }
    revert S ND'. generalize (isort roots). clear. induction l as [|a l IH]; intros S N; constructor.
    + apply IH; [inversion S; auto|inversion N; auto].
    + inversion S as [|? ? S' F']; inversion N as [|? ? N' _]; subst. rewrite Forall_forall in *. intros x Hx. specialize (F' x Hx).
      assert (fst a <> fst x). { intros K. apply N'. rewrite K. apply in_map. auto. } lia.
Qed.

(** A case: the free particle with F(E) = E, error sin(pi E), on [-1/3, 5/2]. *)
Definition ex_me (E : R) (_ : bool) : R * R * R := (sin (PI * E), PI * cos (PI * E), PI * E).
Lemma ex_F E : ang ex_me E = E.
Proof. unfold ang, ex_me; cbn [snd]. unfold sdiv, spi, Scalar_R, Conv_R. field. apply PI_neq0. Qed.
Lemma ex_ceil x k : IZR k - 1 < x <= IZR k -> (-2147483648 <= k <= 2147483647)%Z -> oint (iceil x) = Ret k.
Proof.
  intros Hx Hk. simpl iceil. rewrite (ceil_unique x k Hx). unfold toint, int_ok.
  destruct (Z.leb_spec (-2147483648) k), (Z.leb_spec k 2147483647); try lia. reflexivity.
Qed.
Ltac rdec := repeat match goal with
  | |- context [Rltb ?x ?y] => first [rewrite (proj2 (Rltb_true x y)) by lra | rewrite (proj2 (Rltb_false x y)) by lra]
  | |- context [Rleb ?x ?y] => first [rewrite (proj2 (Rleb_true x y)) by lra | rewrite (proj2 (Rleb_false x y)) by lra]
  end.
Definition it0 (a b : R) (d : Z) := mkItem a (ang ex_me a) b (ang ex_me b) d.
Lemma ex_step_multi a b d ia ib : IZR ia - 1 < a <= IZR ia -> IZR ib - 1 < b <= IZR ib ->
  (0 <= ia + 1)%Z -> (ia + 1 < ib <= 10)%Z -> (0 <= d <= 3)%Z ->
  step ex_me 0 10 (it0 a b d) = Ret (Push ((a + b) / 2) [it0 a ((a + b) / 2) (1 + d); it0 ((a + b) / 2) b (1 + d)]).
Proof.
  intros Ha Hb Hi Hii Hd. unfold step, it0. rewrite !ex_F.
  rewrite (ex_ceil a ia), (ex_ceil b ib) by (auto; lia). cbn [bind].
  assert (L : a < b). { assert (K : (ia + 2 <= ib)%Z) by lia. apply IZR_le in K. rewrite plus_IZR in K. lra. }
  simpl sle. rewrite (proj2 (Rleb_false b a)) by lra. cbn [orb].
  destruct (Z.eqb_spec ia ib); [lia|]. destruct (Z.leb_spec ib 0); [lia|]. destruct (Z.leb_spec 10 ia); [lia|]. cbn [orb].
  destruct (Z.ltb_spec (ia + 1) ib); [|lia]. cbn [orb].
  destruct (Z.ltb_spec 3 d); [lia|]. destruct (Z.ltb_spec 30 d); [lia|]. rewrite andb_false_r. cbn [orb].
  simpl snan. cbv beta iota.
  replace (smul (sofQ (1 # 2)) (sadd a b)) with ((a + b) / 2). 2:{ unfold sofQ, smul, sadd, Scalar_R; cbn [Qnum Qden]; lra. }
  rewrite ex_F. reflexivity.
Qed.
Lemma ex_step_even a b ia : IZR ia - 1 < a < IZR ia -> IZR ia < b <= IZR (ia + 1) -> (0 <= ia < 10)%Z -> b - a > 1 / 100 ->
  1 / 100000000 < Rabs ((a + b) / 2 - IZR ia) ->
  step ex_me 0 10 (it0 a b 2) = Ret (Push ((a + b) / 2) [if Rltb (IZR ia) ((a + b) / 2) then it0 a ((a + b) / 2) 3 else it0 ((a + b) / 2) b 3]).
Proof.
  intros Ha Hb Hi Hab Hc. unfold step, it0. rewrite !ex_F.
  rewrite (ex_ceil a ia) by (try lia; lra). rewrite (ex_ceil b (ia + 1)) by (try lia; rewrite plus_IZR in *; lra). cbn [bind].
  simpl sle. rewrite (proj2 (Rleb_false b a)) by lra. cbn [orb].
  destruct (Z.eqb_spec ia (ia + 1)); [lia|]. destruct (Z.leb_spec (ia + 1) 0); [lia|]. destruct (Z.leb_spec 10 ia); [lia|]. cbn [orb].
  destruct (Z.ltb_spec (ia + 1) (ia + 1)); [lia|]. change (Z.rem 2 2 =? 0)%Z with true. rewrite orb_true_r.
  cbn [orb]. change (3 <? 2)%Z with false. change (30 <? 2)%Z with false. rewrite andb_false_r. cbn [orb].
  simpl snan. cbv beta iota.
  replace (smul (sofQ (1 # 2)) (sadd a b)) with ((a + b) / 2). 2:{ unfold sofQ, smul, sadd, Scalar_R; cbn [Qnum Qden]; lra. }
  rewrite ex_F. set (c := (a + b) / 2) in *.
  unfold slt, sabs, ssub, smul, sofZ, sofQ, Scalar_R, Conv_R; cbn [Qnum Qden].
  rewrite (proj2 (Rltb_false (Rabs (c - IZR ia)) (1 / 100000000))) by lra.
  destruct (Rltb (IZR ia) c) eqn:E.
  - apply Rltb_true in E. rewrite (proj2 (Rltb_true _ 0)); [reflexivity|]. nra.
  - apply Rltb_false in E. rewrite (proj2 (Rltb_false _ 0)); [reflexivity|]. nra.
Qed.
Lemma ex_step_odd a b d ia : IZR ia - 1 < a < IZR ia -> IZR ia < b <= IZR (ia + 1) -> (0 <= ia < 10)%Z -> b - a > 1 / 100 ->
  (d = 1 \/ d = 3)%Z -> step ex_me 0 10 (it0 a b d) = Ret (LeafAt (IZR ia)).
Proof.
  intros Ha Hb Hi Hab Hd. unfold step, it0. rewrite !ex_F.
  rewrite (ex_ceil a ia) by (try lia; lra). rewrite (ex_ceil b (ia + 1)) by (try lia; rewrite plus_IZR in *; lra). cbn [bind].
  simpl sle. rewrite (proj2 (Rleb_false b a)) by lra. cbn [orb].
  destruct (Z.eqb_spec ia (ia + 1)); [lia|]. destruct (Z.leb_spec (ia + 1) 0); [lia|]. destruct (Z.leb_spec 10 ia); [lia|]. cbn [orb].
  destruct (Z.ltb_spec (ia + 1) (ia + 1)); [lia|]. cbn [orb].
  assert (Z.rem d 2 =? 0 = false)%Z as -> by (destruct Hd; subst; reflexivity).
  assert (3 <? d = false)%Z as -> by (destruct Hd; subst; reflexivity).
  assert (30 <? d = false)%Z as -> by (destruct Hd; subst; reflexivity).
  unfold slt, sabs, ssub, smul, sdiv, sofZ, sofQ, snan, Scalar_R, Conv_R; cbn [Qnum Qden].
  rewrite (proj2 (Rltb_false (b - a) (1 / 100000))) by lra. rewrite andb_false_r. cbn [orb]. 
  replace (((b - IZR ia) * a - (a - IZR ia) * b) / (b - a)) with (IZR ia) by (field; lra).
  rewrite ex_F. rewrite Rminus_eq_0, Rabs_R0. rewrite (proj2 (Rltb_true 0 _)) by lra. reflexivity.
Qed.
(** The secant probe: on an odd level, when the interval holds a single index and the angle is linear in E
    there, the energy handed to Newton is the eigenvalue itself. *)
Theorem C27_secant (me : R -> bool -> R * R * R) Imin Imax a b depth k p q :
  a < b -> (forall E, a <= E <= b -> ang me E = p * E + q) ->
  IZR k - 1 < ang me a < IZR k -> IZR k < ang me b <= IZR k + 1 -> (Imin <= k < Imax)%Z -> (-2147483648 <= k < 2147483647)%Z ->
  1 / 100000 <= ang me b - ang me a -> Z.rem depth 2 <> 0%Z ->
  exists c, (step me Imin Imax (mkItem a (ang me a) b (ang me b) depth) = Ret (Leaf c) \/
             step me Imin Imax (mkItem a (ang me a) b (ang me b) depth) = Ret (LeafAt c)) /\
    a < c < b /\ ang me c = IZR k.
Proof.
  intros Hab HF Ha Hb Hk Hi Hd Ho. set (ta := ang me a) in *. set (tb := ang me b) in *.
  assert (Ta : ta = p * a + q) by (apply HF; lra). assert (Tb : tb = p * b + q) by (apply HF; lra).
  set (c := ((tb - IZR k) * a - (ta - IZR k) * b) / (tb - ta)).
  assert (Hpp : p * (b - a) = tb - ta) by lra.
  assert (Hp : 0 < p). { destruct (Rlt_or_le 0 p); auto. assert (p * (b - a) <= 0 * (b - a)) by (apply Rmult_le_compat_r; lra). lra. }
  assert (Hc : p * c + q = IZR k). { unfold c. rewrite Ta, Tb. field. nra. }
  assert (Ic : a < c < b). { split; apply (Rmult_lt_reg_l p); auto; lra. }
  assert (Fc : ang me c = IZR k) by (rewrite HF; lra).
  exists c. split; [|auto]. unfold step.
  rewrite (ex_ceil ta k) by (try lia; lra). rewrite (ex_ceil tb (k + 1)) by (try lia; rewrite plus_IZR in *; lra). cbn [bind].
  simpl sle. rewrite (proj2 (Rleb_false tb ta)) by lra. cbn [orb].
  destruct (Z.eqb_spec k (k + 1)); [lia|]. destruct (Z.leb_spec (k + 1) Imin); [lia|]. destruct (Z.leb_spec Imax k); [lia|]. cbn [orb].
  destruct (Z.ltb_spec (k + 1) (k + 1)); [lia|]. cbn [orb]. destruct (Z.eqb_spec (Z.rem depth 2) 0); [lia|].
  unfold slt, sabs, ssub, smul, sdiv, sofZ, sofQ, snan, Scalar_R, Conv_R; cbn [Qnum Qden].
  rewrite (proj2 (Rltb_false (tb - ta) (1 / 100000))) by lra. cbn [orb]. fold c.
  destruct (_ && _ || _); [left; reflexivity|right]. cbv zeta. unfold slt, sabs, ssub, smul, sdiv, sofZ, sofQ, snan, Scalar_R, Conv_R in Fc; cbn [Qnum Qden] in Fc. rewrite Fc.
  rewrite Rminus_eq_0, Rabs_R0. rewrite (proj2 (Rltb_true 0 _)) by lra. reflexivity.
Qed.
Example C27_secant_case : exists c, step ex_me 0 10 (it0 (1 / 4) (5 / 4) 1) = Ret (LeafAt c) /\ c = 1.
Proof.
  destruct (C27_secant ex_me 0 10 (1 / 4) (5 / 4) 1 1 1 0) as (c & S & _ & K);
    [lra|intros E _; rewrite ex_F; lra|rewrite ex_F; lra|rewrite ex_F; lra|lia|lia|rewrite !ex_F; lra|cbn; lia|].
  rewrite ?ex_F in *. {
    exists c. split; [|exact K]. unfold it0. rewrite !ex_F. destruct S as [S|S]; [|exact S].
    exfalso. pose proof (ex_step_odd (1 / 4) (5 / 4) 1 1 ltac:(lra) ltac:(cbn; lra) ltac:(lia) ltac:(lra) ltac:(auto)) as K2.
    unfold it0 in K2. rewrite !ex_F in K2. rewrite S in K2. discriminate. }
Qed.
Lemma bisect_push me f Imin Imax (it : item R) q c l : step me Imin Imax it = Ret (Push c l) ->
  bisect me (S f) Imin Imax (it :: q) = do r <- bisect me f Imin Imax (q ++ l); Ret (fst r, c :: snd r).
Proof. intros E. cbn [bisect]. rewrite E. reflexivity. Qed.
Lemma bisect_at me f Imin Imax (it : item R) q c : step me Imin Imax it = Ret (LeafAt c) ->
  bisect me (S f) Imin Imax (it :: q) = do r <- bisect me f Imin Imax q; Ret (mkLeaf it c :: fst r, snd r).
Proof. intros E. cbn [bisect]. rewrite E. reflexivity. Qed.
Lemma ex_bisect fuel : (2 ^ 32 <= Z.of_nat fuel)%Z -> exists leaves,
  bisect ex_me fuel 0 10 (initial ex_me (-1 / 3) (5 / 2)) = Ret (leaves, [13 / 12; 3 / 8; 1 / 48; 35 / 48]) /\
  map (fun lf => lc lf) leaves = [IZR 2; IZR 0; IZR 1].
Proof.
  intros Hf. 
  assert (B : exists leaves, bisect ex_me 8 0 10 (initial ex_me (-1 / 3) (5 / 2)) = Ret (leaves, [13 / 12; 3 / 8; 1 / 48; 35 / 48]) /\ map (fun lf => lc lf) leaves = [IZR 2; IZR 0; IZR 1]).
  { unfold initial. fold (it0 (-1 / 3) (5 / 2) 0).
    rewrite (bisect_push ex_me 7 0 10 _ _ _ _ (ex_step_multi (-1/3) (5/2) 0 0 3 ltac:(lra) ltac:(lra) ltac:(lia) ltac:(lia) ltac:(lia))). cbn [app].
    replace ((-1 / 3 + 5 / 2) / 2) with (13 / 12) by lra.
    rewrite (bisect_push ex_me 6 0 10 _ _ _ _ (ex_step_multi (-1/3) (13/12) (1 + 0) 0 2 ltac:(lra) ltac:(lra) ltac:(lia) ltac:(lia) ltac:(lia))). cbn [app].
    replace ((-1 / 3 + 13 / 12) / 2) with (3 / 8) by lra.
    rewrite (bisect_at ex_me 5 0 10 (it0 (13/12) (5/2) (1 + 0)) _ _ (ex_step_odd (13/12) (5/2) (1 + 0) 2 ltac:(lra) ltac:(simpl IZR; lra) ltac:(lia) ltac:(lra) ltac:(left; lia))).
    change (1 + (1 + 0))%Z with 2%Z.
    assert (S1 := ex_step_even (-1/3) (3/8) 0 ltac:(simpl IZR; lra) ltac:(simpl IZR; lra) ltac:(lia) ltac:(lra) ltac:(unfold Rabs; destruct (Rcase_abs _); simpl IZR in *; lra)).
    replace ((-1 / 3 + 3 / 8) / 2) with (1 / 48) in S1 by lra. rewrite (proj2 (Rltb_true (IZR 0) (1 / 48))) in S1 by lra.
    rewrite (bisect_push ex_me 4 0 10 _ _ _ _ S1). cbn [app].
    assert (S2 := ex_step_even (3/8) (13/12) 1 ltac:(simpl IZR; lra) ltac:(simpl IZR; lra) ltac:(lia) ltac:(lra) ltac:(unfold Rabs; destruct (Rcase_abs _); simpl IZR in *; lra)).
    replace ((3 / 8 + 13 / 12) / 2) with (35 / 48) in S2 by lra. rewrite (proj2 (Rltb_false (IZR 1) (35 / 48))) in S2 by lra.
    rewrite (bisect_push ex_me 3 0 10 _ _ _ _ S2). cbn [app].
    rewrite (bisect_at ex_me 2 0 10 (it0 (-1/3) (1/48) 3) _ _ (ex_step_odd (-1/3) (1/48) 3 0 ltac:(lra) ltac:(simpl IZR; lra) ltac:(lia) ltac:(lra) ltac:(right; lia))).
    rewrite (bisect_at ex_me 1 0 10 (it0 (35/48) (13/12) 3) _ _ (ex_step_odd (35/48) (13/12) 3 1 ltac:(lra) ltac:(simpl IZR; lra) ltac:(lia) ltac:(lra) ltac:(right; lia))).
    cbn [bisect bind fst snd].
    eexists. split; [reflexivity|]. reflexivity. }
  destruct B as (lv & B & L). exists lv. split; auto. rewrite (bisect_mono ex_me 8 fuel); [exact B|lia|]. rewrite B. discriminate.
Qed.
Lemma newton_exact me tol E u d th : 0 <= tol -> me E u = (0, d, th) ->
  newton me tol E u = (do i <- oint (iround (th / PI)); Ret (if (i <? 0)%Z then 0%Z else i, E)).
Proof.
  intros Ht Hm. unfold newton. change 20%nat with (S 19). cbn [newton_loop]. rewrite Hm.
  assert (A : sdiv 0 d = 0) by (unfold sdiv, Scalar_R, Rdiv; ring). rewrite A.
  assert (B : slt tol (sabs 0) = false) by (simpl; apply Rltb_false; rewrite Rabs_R0; exact Ht). rewrite B, andb_false_r.
  cbn [bind]. replace (ssub E 0) with E by (unfold ssub, Scalar_R; ring). reflexivity.
Qed.
Lemma round_int k : Rround (IZR k) = k.
Proof.
  unfold Rround. destruct (Rleb 0 (IZR k)).
  - apply floor_unique. lra.
  - rewrite <- opp_IZR. assert (Rfloor (IZR (- k) + / 2) = (- k)%Z) as Q by (apply floor_unique; lra). unfold Rfloor in Q. rewrite Q. lia.
Qed.
(** All the hypotheses of [C27_brackets] and [C27_complete] hold here, and the result is (0,0),(1,1),(2,2). *)
Example C27_case fuel : (2 ^ 32 <= Z.of_nat fuel)%Z ->
  (-1/3 < 5/2) /\ rises_through_integers (ang ex_me) (-1/3) (5/2) /\ continuous_on (ang ex_me) (-1/3) (5/2) /\
  fits_int (ang ex_me (-1/3)) /\ fits_int (ang ex_me (5/2)) /\
  separated (ang ex_me) (-1/3) (5/2) ((5/2 - -1/3) / 2 ^ 31) /\
  nonint (ang ex_me (-1/3)) /\ nonint (ang ex_me (5/2)) /\
  (exists leaves cuts, bisect ex_me fuel 0 10 (initial ex_me (-1/3) (5/2)) = Ret (leaves, cuts) /\
     Forall (fun c => nonint (ang ex_me c)) cuts /\
     forall lf k E, In lf leaves -> inside lf E -> eigenvalue_of (ang ex_me) k E -> newton ex_me 0 (lc lf) true = Ret (k, E)).
Proof.
  intros Hf.
  assert (Fr : forall p q : Z, (0 < q)%Z -> (Z.rem p q <> 0)%Z -> nonint (IZR p / IZR q)).
  { intros p q Hq Hr k K. apply Hr. apply (f_equal (fun x => x * IZR q)) in K. 
    assert (IZR q <> 0) by (apply not_0_IZR; lia). unfold Rdiv in K. rewrite Rmult_assoc, Rinv_l, Rmult_1_r, <- mult_IZR in K by auto.
    apply eq_IZR in K. subst p. apply Z.rem_mul. lia. }
  assert (HI : rises_through_integers (ang ex_me) (-1/3) (5/2)) by (intros k x y _ L _; rewrite !ex_F; lra).
  assert (HC : continuous_on (ang ex_me) (-1/3) (5/2)).
  { intros x _. apply (continuity_pt_locally_ext (fun x => x) (ang ex_me) 1); [lra| |apply derivable_continuous_pt, derivable_pt_id].
    intros; rewrite ex_F; reflexivity. }
  assert (F1 : fits_int (ang ex_me (-1/3))) by (rewrite ex_F; unfold fits_int; lra).
  assert (F2 : fits_int (ang ex_me (5/2))) by (rewrite ex_F; unfold fits_int; lra).
  assert (HS : separated (ang ex_me) (-1/3) (5/2) ((5/2 - -1/3) / 2 ^ 31)).
  { intros j k x y _ L _. unfold eigenvalue_of. rewrite !ex_F. intros -> ->. apply lt_IZR in L.
    assert (K : (j + 1 <= k)%Z) by lia. apply IZR_le in K. rewrite plus_IZR in K.
    assert ((5 / 2 - -1 / 3) / 2 ^ 31 <= 1) by (cbn [pow]; lra). lra. }
  assert (N1 : nonint (ang ex_me (-1/3))) by (rewrite ex_F; apply (Fr (-1)%Z 3%Z); [lia|discriminate]).
  assert (N2 : nonint (ang ex_me (5/2))) by (rewrite ex_F; apply (Fr 5%Z 2%Z); [lia|discriminate]).
  split; [lra|]. do 7 (split; [assumption|]).
  destruct (ex_bisect fuel Hf) as (leaves & Eb & Ec).
  assert (NC : Forall (fun c => nonint (ang ex_me c)) [13 / 12; 3 / 8; 1 / 48; 35 / 48]).
  { repeat (apply Forall_cons; [rewrite ex_F; (apply Fr; [lia|discriminate])|]). apply Forall_nil. }
  exists leaves, [13 / 12; 3 / 8; 1 / 48; 35 / 48]. split; [exact Eb|]. split; [exact NC|].
  intros lf k E Hl HE Ek.
  destruct (C27_brackets ex_me (-1/3) (5/2) 0 10 fuel ltac:(lra) HI HC F1 F2 HS N1 N2 Hf) as (lv & ct & Eb' & _ & B).
  assert (lv = leaves /\ ct = [13 / 12; 3 / 8; 1 / 48; 35 / 48]) as [-> ->] by (rewrite Eb in Eb'; injection Eb'; auto).
  destruct (B NC) as [_ B2]. rewrite Forall_forall in B2. destruct (B2 lf Hl) as ((A1 & A2 & A3) & k0 & E0 & _ & _ & _ & U).
  assert (Hc : exists m, lc lf = IZR m /\ (0 <= m <= 2)%Z).
  { apply (in_map (fun lf => lc lf)) in Hl. rewrite Ec in Hl. destruct Hl as [<-|[<-|[<-|[]]]]; eexists; (split; [reflexivity|lia]). }
  destruct Hc as (m & Hm & Hmr).
  destruct (U k E HE Ek) as [-> ->]. destruct (U m (lc lf)) as [Q1 Q2]; [unfold inside; lra|unfold eigenvalue_of; rewrite ex_F; exact Hm|].
  rewrite <- Q1, <- Q2, Hm.
  rewrite (newton_exact ex_me 0 (IZR m) true (PI * cos (PI * IZR m)) (PI * IZR m)); [|lra|].
  - replace (PI * IZR m / PI) with (IZR m) by (field; apply PI_neq0). simpl iround. rewrite round_int. unfold toint, int_ok.
    destruct (Z.leb_spec (-2147483648) m), (Z.leb_spec m 2147483647); try lia. cbn [andb oint bind].
    destruct (Z.ltb_spec m 0); [lia|]. reflexivity.
  - unfold ex_me. rewrite (sin_eq_0_1 (PI * IZR m)); [reflexivity|]. exists m. ring.
Qed.

Lemma iceil_R (x : R) : iceil x = toint (Rceil x). Proof. reflexivity. Qed.
Lemma ifloor_R (x : R) : ifloor x = toint (Rfloor x). Proof. reflexivity. Qed.

(** ** C28 : the documented closed interval *)
(** An eigenvalue at the upper end point is never found. *)
Theorem C28_right_end_refuted (me : R -> bool -> R * R * R) tol fuel Emin Emax k :
  (0 < fuel)%nat -> (-2147483648 <= k <= 2147483647)%Z ->
  IZR k - 1 < ang me Emin < IZR k -> eigenvalue_of (ang me) k Emax ->
  eigenvalues me tol fuel Emin Emax = Ret [].
Proof.
  intros Hf Hk Ha Hb. unfold eigenvalues, computeEigenvalues. cbn [Z.ltb Z.compare].
  destruct fuel as [|f]; [lia|]. cbn [bisect]. unfold step.
  rewrite (ex_ceil _ k) by (try lia; lra). rewrite (ex_ceil (ang me Emax) k) by (try lia; unfold eigenvalue_of in Hb; lra). cbn [bind].
  rewrite Z.eqb_refl, orb_true_r. cbn [orb bind]. destruct f; reflexivity.
Qed.
(** An eigenvalue at the lower end point is lost too (unless the midpoint angle is within 1e-8 of it). *)
Theorem C28_left_end_refuted (me : R -> bool -> R * R * R) tol fuel Emin Emax k :
  (1 < fuel)%nat -> (0 <= k < 2147483647)%Z -> eigenvalue_of (ang me) k Emin ->
  IZR k + 1 / 100000000 <= ang me ((Emin + Emax) / 2) -> ang me ((Emin + Emax) / 2) < ang me Emax -> ang me Emax < IZR k + 1 ->
  eigenvalues me tol fuel Emin Emax = Ret [].
Proof.
  intros Hf Hk Ha Hc Hcb Hb. unfold eigenvalues, computeEigenvalues. cbn [Z.ltb Z.compare]. unfold eigenvalue_of in Ha.
  destruct fuel as [|[|f]]; [lia|lia|]. 
  assert (S1 : step me 0 2147483647 (mkItem Emin (ang me Emin) Emax (ang me Emax) 0%Z) =
     Ret (Push ((Emin + Emax) / 2) [mkItem ((Emin + Emax) / 2) (ang me ((Emin + Emax) / 2)) Emax (ang me Emax) 1])).
  { unfold step. rewrite (ex_ceil (ang me Emin) k) by (try lia; lra). rewrite (ex_ceil (ang me Emax) (k + 1)) by (try lia; rewrite plus_IZR; lra). cbn [bind].
    change (sle (ang me Emax) (ang me Emin)) with (Rleb (ang me Emax) (ang me Emin)). rewrite (proj2 (Rleb_false (ang me Emax) (ang me Emin))) by lra. cbn [orb].
    destruct (Z.eqb_spec k (k + 1)); [lia|]. destruct (Z.leb_spec (k + 1) 0); [lia|]. destruct (Z.leb_spec 2147483647 k); [lia|]. cbn [orb].
    destruct (Z.ltb_spec (k + 1) (k + 1)); [lia|]. change (Z.rem 0 2 =? 0)%Z with true. rewrite orb_true_r.
    cbn [orb]. change (3 <? 0)%Z with false. change (30 <? 0)%Z with false. rewrite andb_false_r. cbn [orb].
    replace (smul (sofQ (1 # 2)) (sadd Emin Emax)) with ((Emin + Emax) / 2). 2:{ unfold sofQ, smul, sadd, Scalar_R; cbn [Qnum Qden]; lra. }
    set (c := (Emin + Emax) / 2) in *. set (tc := ang me c) in *. set (ta := ang me Emin) in *. set (tb := ang me Emax) in *.
    unfold slt, sabs, ssub, smul, sofZ, sofQ, snan, Scalar_R, Conv_R; cbn [Qnum Qden].
    rewrite (proj2 (Rltb_false (Rabs (tc - IZR k)) (1 / 100000000))) by (rewrite Rabs_pos_eq; lra).
    rewrite (proj2 (Rltb_false _ 0)); [reflexivity|]. rewrite Ha. lra. }
  cbn [bisect]. rewrite S1. cbn [bind app].
  assert (S2 : step me 0 2147483647 (mkItem ((Emin + Emax) / 2) (ang me ((Emin + Emax) / 2)) Emax (ang me Emax) 1%Z) = Ret Skip).
  { unfold step. rewrite (ex_ceil _ (k + 1)) by (try lia; rewrite plus_IZR; lra). rewrite (ex_ceil (ang me Emax) (k + 1)) by (try lia; rewrite plus_IZR; lra). cbn [bind].
    rewrite Z.eqb_refl, orb_true_r. reflexivity. }
  cbn [bisect]. rewrite S2. cbn [bind]. destruct f; reflexivity.
Qed.
(** The end-point hypotheses are met: the free particle, asked for [0,1/2] and [1/2,1]. *)
Example C28_case tol fuel : (1 < fuel)%nat ->
  eigenvalue_of (ang ex_me) 0 0 /\ eigenvalues ex_me tol fuel 0 (1 / 2) = Ret [] /\
  eigenvalue_of (ang ex_me) 1 1 /\ eigenvalues ex_me tol fuel (1 / 2) 1 = Ret [].
Proof.
  intros Hf. unfold eigenvalue_of. rewrite !ex_F. split; [reflexivity|]. split; [|split; [reflexivity|]].
  - apply (C28_left_end_refuted ex_me tol fuel 0 (1/2) 0); unfold eigenvalue_of; rewrite ?ex_F; try lia; try lra.
  - apply (C28_right_end_refuted ex_me tol fuel (1/2) 1 1); unfold eigenvalue_of; rewrite ?ex_F; try lia; try lra.
Qed.

(** ** C29 : any scalar type *)
Theorem C29_rejected {T} `{Scalar T} `{Conv T} (me : T -> bool -> T * T * T) tol fuel Emin Emax Imin Imax :
  (Imin < 0 \/ Imax < Imin)%Z -> exists msg, computeEigenvalues me tol fuel Emin Emax Imin Imax = Throw msg.
Proof.
  intros Hi. unfold computeEigenvalues. destruct (Z.ltb_spec Imin 0); [eauto|]. destruct (Z.ltb_spec Imax Imin); [eauto|lia].
Qed.
Theorem C29_no_result_partial {T} `{Scalar T} `{Conv T} (me : T -> bool -> T * T * T) tol fuel Imin Imax :
  (Imin < 0 \/ Imax < Imin)%Z -> forall l, eigenvaluesByIndex me tol fuel Imin Imax <> Ret l.
Proof.
  intros Hi l. unfold eigenvaluesByIndex. destruct (bracket me fuel Imin Imax) as [r|s|s|]; cbn [bind]; try discriminate.
  destruct (C29_rejected me tol fuel (fst r) (snd r) Imin Imax Hi) as [m ->]. discriminate.
Qed.
(** A negative Imin is not rejected when the angle stays above -pi, which is the case for every
    regular problem: the search for a lower energy bound does not end. *)
Lemma find_emin_hangs (me : R -> bool -> R * R * R) Imin Imax : (Imin < 0)%Z ->
  (forall E, -1 < ang me E <= 2147483647) -> forall fuel a b, find_emin me fuel Imin Imax a b = Fuel.
Proof.
  intros Hi Hb. induction fuel as [|f IH]; intros a b; cbn [find_emin]; [reflexivity|].
  rewrite iceil_R. rewrite ceil_fits by (unfold fits_int; specialize (Hb a); lra). cbn [oint bind].
  assert (C : (0 <= Rceil (ang me a))%Z).
  { pose proof (ceil_spec (ang me a)). specialize (Hb a). assert (K : IZR (-1) < IZR (Rceil (ang me a))) by lra. apply lt_IZR in K. lia. }
  destruct (Z.leb_spec (Rceil (ang me a)) Imin); [lia|]. apply IH.
Qed.
Theorem C29_negative_hangs_refuted (me : R -> bool -> R * R * R) tol Imin Imax :
  (Imin < 0)%Z -> (Imax <= 0)%Z -> (forall E, -1 < ang me E <= 2147483647) -> 0 <= ang me 1 ->
  forall fuel, eigenvaluesByIndex me tol fuel Imin Imax = Fuel.
Proof.
  intros Hi Hx Hb H1 fuel. unfold eigenvaluesByIndex, bracket. destruct fuel as [|f]; [reflexivity|]. cbn [find_emax].
  change (@sofZ R Scalar_R 1%Z) with (IZR 1). rewrite ifloor_R.
  assert (Fl : (0 <= Rfloor (ang me 1%R) < 2147483648)%Z).
  { pose proof (floor_spec (ang me 1)). specialize (Hb 1). split.
    - assert (K : IZR (-1) < IZR (Rfloor (ang me 1))) by lra. apply lt_IZR in K. lia.
    - assert (K : IZR (Rfloor (ang me 1)) < IZR 2147483648) by lra. apply lt_IZR in K. lia. }
  unfold toint, int_ok. destruct (Z.leb_spec (-2147483648) (Rfloor (ang me 1))); [|lia]. destruct (Z.leb_spec (Rfloor (ang me 1)) 2147483647); [|lia].
  cbn [andb oint bind]. destruct (Z.leb_spec Imax (Rfloor (ang me 1))); [|lia]. cbn [bind fst snd].
  assert (Eq : seqb (@sofZ R _ (-1)%Z) (@sofZ R _ (-1)%Z) = true) by (simpl; apply Reqb_true; reflexivity). rewrite Eq.
  rewrite find_emin_hangs by auto. reflexivity.
Qed.
Example C29_case : exists me : R -> bool -> R * R * R, (forall E, -1 < ang me E <= 2147483647) /\ 0 <= ang me 1.
Proof.
  exists (fun E _ => (0, 1, atan E)). unfold ang; cbn [snd]. unfold sdiv, spi, Scalar_R, Conv_R.
  pose proof PI_RGT_0. split.
  - intros E. pose proof (atan_bound E) as [A B].
    assert (- (1 / 2) < atan E / PI) by (apply Rmult_lt_reg_r with PI; auto; unfold Rdiv; rewrite Rmult_assoc, Rinv_l; lra).
    assert (atan E / PI < 1 / 2) by (apply Rmult_lt_reg_r with PI; auto; unfold Rdiv; rewrite Rmult_assoc, Rinv_l; lra). lra.
  - rewrite atan_1. replace (PI / 4 / PI) with (/ 4) by (field; lra). lra.
Qed.

(** ** C30 *)
Section Bracket.
Variable me : R -> bool -> R * R * R.
Notation F := (ang me).
Variables Imin Imax : Z.
Variables X X' : R.
Hypothesis HX : 1 <= X /\ forall x, X <= x -> IZR Imax <= F x.
Hypothesis HX' : 1 <= X' /\ forall x, x <= - X' -> F x <= IZR Imin.
Hypothesis Hfit : forall x, - (2 * X') <= x <= 2 * X -> -2147483648 <= F x <= 2147483647.
Lemma fl_fits x : -2147483648 <= x <= 2147483647 -> oint (ifloor x) = Ret (Rfloor x).
Proof.
  intros Hx. rewrite ifloor_R. pose proof (floor_spec x).
  assert (K1 : IZR (-2147483649) < IZR (Rfloor x)) by lra. assert (K2 : IZR (Rfloor x) < IZR 2147483648) by lra.
  apply lt_IZR in K1, K2. unfold toint, int_ok. destruct (Z.leb_spec (-2147483648) (Rfloor x)), (Z.leb_spec (Rfloor x) 2147483647); try lia. reflexivity.
Qed.
Lemma find_emax_ok n : forall lo hi, 1 <= hi < 2 * X -> X <= hi * 2 ^ n -> (lo = -1 \/ (lo < hi /\ F lo < IZR Imin /\ 1 <= lo)) ->
  forall fuel, (n < fuel)%nat -> exists lo' hi', find_emax me fuel Imin Imax lo hi = Ret (lo', hi') /\
    1 <= hi' < 2 * X /\ IZR Imax <= F hi' /\ (lo' = -1 \/ (lo' < hi' /\ F lo' < IZR Imin /\ 1 <= lo')).
Proof.
  induction n as [|n IH]; intros lo hi H1 H2 H3 [|f] Hf; try lia; cbn [find_emax];
    rewrite fl_fits by (apply Hfit; lra); cbn [bind];
    pose proof (floor_spec (F hi)) as Fs;
    (destruct (Z.leb_spec Imax (Rfloor (F hi))) as [L|L];
     [apply IZR_le in L; do 2 eexists; split; [reflexivity|]; repeat split; auto; lra|]).
  - exfalso. assert (K : IZR Imax <= F hi) by (apply (proj2 HX); cbn [pow] in H2; lra).
    assert (L' : (Rfloor (F hi) + 1 <= Imax)%Z) by lia. apply IZR_le in L'. rewrite plus_IZR in L'. lra.
  - assert (NX : hi < X).
    { destruct (Rlt_dec hi X); auto. exfalso. assert (K : IZR Imax <= F hi) by (apply (proj2 HX); lra).
      assert (L' : (Rfloor (F hi) + 1 <= Imax)%Z) by lia. apply IZR_le in L'. rewrite plus_IZR in L'. lra. }
    change (smul hi (sofZ 2)) with (hi * 2). apply (IH _ (hi * 2)).
    + lra.
    + cbn [pow] in H2. lra.
    + destruct (Z.ltb_spec (Rfloor (F hi)) Imin) as [Q|Q].
      * right. assert (Q' : (Rfloor (F hi) + 1 <= Imin)%Z) by lia. apply IZR_le in Q'. rewrite plus_IZR in Q'. repeat split; lra.
      * destruct H3 as [->|(A & B & C)]; [left; reflexivity|right]. repeat split; lra.
    + lia.
Qed.
Lemma find_emin_ok n : forall lo hi, 1 <= lo < 2 * X' -> X' <= lo * 2 ^ n -> - lo < hi -> hi < 2 * X -> IZR Imax <= F hi ->
  forall fuel, (n < fuel)%nat -> exists lo' hi', find_emin me fuel Imin Imax (- lo) hi = Ret (lo', hi') /\
    lo' < hi' /\ hi' < 2 * X /\ F lo' <= IZR Imin /\ IZR Imax <= F hi'.
Proof.
  induction n as [|n IH]; intros lo hi H1 H2 H3 H3' H4 [|f] Hf; try lia; cbn [find_emin]; rewrite iceil_R;
    rewrite ceil_fits by (unfold fits_int; pose proof (Hfit (- lo) ltac:(lra)); lra); cbn [oint bind];
    pose proof (ceil_spec (F (- lo))) as Fs;
    (destruct (Z.leb_spec (Rceil (F (- lo))) Imin) as [L|L];
     [apply IZR_le in L; do 2 eexists; split; [reflexivity|]; repeat split; auto; lra|]).
  - exfalso. assert (K : F (- lo) <= IZR Imin) by (apply (proj2 HX'); cbn [pow] in H2; lra).
    assert (L' : (Imin + 1 <= Rceil (F (- lo)%R))%Z) by lia. apply IZR_le in L'. rewrite plus_IZR in L'. lra.
  - assert (NX : lo < X').
    { destruct (Rlt_dec lo X'); auto. exfalso. assert (K : F (- lo) <= IZR Imin) by (apply (proj2 HX'); lra).
      assert (L' : (Imin + 1 <= Rceil (F (- lo)%R))%Z) by lia. apply IZR_le in L'. rewrite plus_IZR in L'. lra. }
    replace (smul (- lo) (sofZ 2)) with (- (lo * 2)) by (unfold smul, sofZ, Scalar_R; ring).
    apply (IH (lo * 2)).
    + lra.
    + cbn [pow] in H2. lra.
    + destruct (Z.ltb_spec Imax (Rceil (F (- lo)))); lra.
    + destruct (Z.ltb_spec Imax (Rceil (F (- lo)))); lra.
    + destruct (Z.ltb_spec Imax (Rceil (F (- lo)))) as [Q|Q]; [|exact H4].
      assert (Q' : (Imax + 1 <= Rceil (F (- lo)%R))%Z) by lia. apply IZR_le in Q'. rewrite plus_IZR in Q'. lra.
    + lia.
Qed.
Lemma pow_exists x : exists n, x <= 1 * 2 ^ n.
Proof.
  destruct (Pow_x_infinity 2 ltac:(rewrite Rabs_pos_eq; lra) x) as [n Hn]. exists n. specialize (Hn n ltac:(lia)).
  rewrite Rabs_pos_eq in Hn by (apply pow_le; lra). lra.
Qed.
End Bracket.
Theorem C30_bracket_limits (me : R -> bool -> R * R * R) Imin Imax X X' :
  let F := ang me in
  1 <= X /\ (forall x, X <= x -> IZR Imax <= F x) -> 1 <= X' /\ (forall x, x <= - X' -> F x <= IZR Imin) ->
  (forall x, - (2 * X') <= x <= 2 * X -> -2147483648 <= F x <= 2147483647) ->
  exists n Emin Emax, (forall fuel, (n < fuel)%nat -> bracket me fuel Imin Imax = Ret (Emin, Emax)) /\
    Emin < Emax /\ Emax < 2 * X /\ F Emin <= IZR Imin /\ IZR Imax <= F Emax.
Proof.
  intros F HX HX' HF.
  destruct (pow_exists X) as [n1 P1]. destruct (pow_exists X') as [n2 P2].
  set (n := Nat.max n1 n2).
  assert (Mono : forall f f' lo hi r, (f <= f')%nat -> find_emax me f Imin Imax lo hi = Ret r -> find_emax me f' Imin Imax lo hi = Ret r).
  { clear. induction f as [|f IH]; intros f' lo hi r L; cbn [find_emax]; [discriminate|]. destruct f' as [|f']; [lia|]. cbn [find_emax].
    destruct (oint _) as [i|s|s|]; cbn [bind]; auto. destruct (Imax <=? i)%Z; auto. apply IH. lia. }
  assert (Mono2 : forall f f' lo hi r, (f <= f')%nat -> find_emin me f Imin Imax lo hi = Ret r -> find_emin me f' Imin Imax lo hi = Ret r).
  { clear. induction f as [|f IH]; intros f' lo hi r L; cbn [find_emin]; [discriminate|]. destruct f' as [|f']; [lia|]. cbn [find_emin].
    destruct (oint _) as [i|s|s|]; cbn [bind]; auto. destruct (i <=? Imin)%Z; auto. apply IH. lia. }
  destruct (find_emax_ok me Imin Imax X X' HX HX' HF n1 (-1) 1 ltac:(lra) P1 ltac:(left; reflexivity) (S n) ltac:(lia)) as (lo & hi & E1 & A1 & A2 & A3).
  destruct A3 as [->|(B1 & B2 & B3)].
  - destruct (find_emin_ok me Imin Imax X X' HX HX' HF n2 1 hi ltac:(lra) P2 ltac:(lra) ltac:(lra) A2 (S n) ltac:(lia)) as (lo' & hi' & E2 & C1 & C1' & C2 & C3).
    exists n, lo', hi'. split; [|auto]. intros fuel Hf. unfold bracket.
    change (@sofZ R Scalar_R (-1)%Z) with (IZR (-1)). change (@sofZ R Scalar_R 1%Z) with (IZR 1).
    rewrite (Mono (S n) fuel _ _ _ ltac:(lia) E1). cbn [bind fst snd].
    assert (Eq : seqb (-1) (-1) = true) by (simpl; apply Reqb_true; reflexivity). rewrite Eq.
    apply (Mono2 (S n)); [lia|]. exact E2.
  - exists n, lo, hi. split; [|repeat split; auto; try lra; unfold F; lra]. intros fuel Hf. unfold bracket.
    change (@sofZ R Scalar_R (-1)%Z) with (IZR (-1)). change (@sofZ R Scalar_R 1%Z) with (IZR 1).
    rewrite (Mono (S n) fuel _ _ _ ltac:(lia) E1). cbn [bind fst snd].
    assert (Eq : seqb lo (-1) = false) by (simpl; apply Reqb_false; lra). rewrite Eq. reflexivity.
Qed.
Theorem C30_bracket (me : R -> bool -> R * R * R) Imin Imax X X' :
  let F := ang me in
  (forall x y, x <= y -> F x <= F y) ->
  1 <= X /\ IZR Imax <= F X -> 1 <= X' /\ F (- X') <= IZR Imin ->
  (forall x, - (2 * X') <= x <= 2 * X -> -2147483648 <= F x <= 2147483647) ->
  exists n Emin Emax, (forall fuel, (n < fuel)%nat -> bracket me fuel Imin Imax = Ret (Emin, Emax)) /\
    Emin < Emax /\ F Emin <= IZR Imin /\ IZR Imax <= F Emax.
Proof.
  intros F HM [HX1 HX2] [HY1 HY2] HF. destruct (C30_bracket_limits me Imin Imax X X') as (n & a & b & H1 & H2 & _ & H3); [split; [exact HX1|]|split; [exact HY1|]|exact HF|exists n, a, b; auto].
  - intros x Hx. apply Rle_trans with (1 := HX2), HM, Hx.
  - intros x Hx. apply Rle_trans with (2 := HY2), HM, Hx.
Qed.
(** Put together: when the bracket end points and cuts are not exact eigenvalues and Newton converges on every
    leaf, the call returns exactly one pair for each of the requested indices. *)
Theorem C30_by_index (me : R -> bool -> R * R * R) tol fuel Imin Imax Emin Emax leaves cuts :
  let F := ang me in
  (2 ^ 32 <= Z.of_nat fuel)%Z -> (0 <= Imin <= Imax)%Z ->
  bracket me fuel Imin Imax = Ret (Emin, Emax) -> Emin < Emax -> F Emin <= IZR Imin -> IZR Imax <= F Emax ->
  rises_through_integers F Emin Emax -> continuous_on F Emin Emax ->
  fits_int (F Emin) -> fits_int (F Emax) -> separated F Emin Emax ((Emax - Emin) / 2 ^ 31) ->
  nonint (F Emin) -> nonint (F Emax) ->
  bisect me fuel Imin Imax (initial me Emin Emax) = Ret (leaves, cuts) ->
  Forall (fun c => nonint (F c)) cuts ->
  (forall lf k E, In lf leaves -> inside lf E -> eigenvalue_of F k E -> newton me tol (lc lf) true = Ret (k, E)) ->
  exists l, eigenvaluesByIndex me tol fuel Imin Imax = Ret l /\
    map fst l = map (fun n => (Imin + Z.of_nat n)%Z) (seq 0 (Z.to_nat (Imax - Imin))) /\
    Forall (fun p => eigenvalue_of F (fst p) (snd p)) l.
Proof.
  intros F Hf HII Hb Hlt Ha Hz HI HC Hf1 Hf2 HS N1 N2 Hbi Nc HN.
  destruct (C27_complete me tol Emin Emax Imin Imax fuel leaves cuts Hlt HI HC Hf1 Hf2 HS N1 N2 Hf HII Hbi Nc HN) as (l & El & Hin & Hs).
  exists l. unfold eigenvaluesByIndex. rewrite Hb. cbn [bind fst snd]. split; [exact El|]. split.
  2:{ rewrite Forall_forall. intros [k E] Hi. apply Hin in Hi. tauto. }
  assert (Hk : forall k, In k (map fst l) <-> (Imin <= k < Imax)%Z).
  { intros k. rewrite in_map_iff. split.
    - intros ([k' E] & <- & Hi). apply Hin in Hi. tauto.
    - intros Hk. destruct (crossing me Emin Emax (mkItem Emin (F Emin) Emax (F Emax) 0%Z) k HC) as (E & HE & Ek).
      + unfold good; cbn [ia_ ib_ ta_ tb_ dep_]. split; [lra|]. split; [reflexivity|]. split; [reflexivity|]. split; [exact N1|]. split; [exact N2|]. split; [lia|]. intros _. simpl. lra.
      + apply spans_true; cbn [ta_ tb_].
        assert (K1 : IZR Imin <= IZR k) by (apply IZR_le; lia). assert (K2 : IZR k < IZR Imax) by (apply IZR_lt; lia).
        pose proof (N1 Imin). unfold F in *. lra.
      + exists (k, E). split; [reflexivity|]. apply Hin. auto. }
  assert (Ss : StronglySorted Z.lt (map fst l)).
  { clear -Hs. induction Hs; cbn [map]; constructor; auto. rewrite Forall_forall in *. intros x Hx. apply in_map_iff in Hx. destruct Hx as (p & <- & Hp). auto. }
  assert (Ss2 : forall n k, StronglySorted Z.lt (map (fun i => (k + Z.of_nat i)%Z) (seq 0 n))).
  { clear. intros n k. generalize 0%nat as j. induction n as [|n IH]; intros j; cbn [seq map]; constructor; auto.
    rewrite Forall_forall. intros x Hx. apply in_map_iff in Hx. destruct Hx as (i & <- & Hi). apply in_seq in Hi. lia. }
  assert (U : forall a b, StronglySorted Z.lt a -> StronglySorted Z.lt b -> (forall k, In k a <-> In k b) -> a = b).
  { clear. induction a as [|x a IH]; intros b Sa Sb E.
    - destruct b as [|y b]; auto. destruct (proj2 (E y) (or_introl eq_refl)).
    - destruct b as [|y b]. { destruct (proj1 (E x) (or_introl eq_refl)). }
      inversion Sa as [|? ? Sa' Fa]; inversion Sb as [|? ? Sb' Fb]; subst. rewrite Forall_forall in Fa, Fb.
      assert (x = y).
      { destruct (proj1 (E x) (or_introl eq_refl)) as [K|K]; auto. destruct (proj2 (E y) (or_introl eq_refl)) as [K'|K']; auto.
        specialize (Fa y K'). specialize (Fb x K). lia. }
      subst y. f_equal. apply IH; auto. intros k. split; intros K.
      + destruct (proj1 (E k) (or_intror K)) as [<-|]; auto. specialize (Fa x K). lia.
      + destruct (proj2 (E k) (or_intror K)) as [<-|]; auto. specialize (Fb x K). lia. }
  apply U; auto. intros k. rewrite Hk, in_map_iff. split.
  - intros Hr. exists (Z.to_nat (k - Imin)). split; [lia|]. apply in_seq. lia.
  - intros (i & <- & Hi). apply in_seq in Hi. lia.
Qed.
(** A nondecreasing angle function that meets the hypotheses of [C30_bracket]: the free-particle F(E)=E clipped at 0. *)
Example C30_case : exists me : R -> bool -> R * R * R,
  (forall x y, x <= y -> ang me x <= ang me y) /\ (1 <= 3 /\ IZR 3 <= ang me 3) /\ (1 <= 1 /\ ang me (- 1) <= IZR 0) /\
  (forall x, - (2 * 1) <= x <= 2 * 3 -> -2147483648 <= ang me x <= 2147483647).
Proof.
  exists (fun E _ => (sin E, cos E, PI * Rmax 0 E)).
  assert (A : forall E, ang (fun E _ => (sin E, cos E, PI * Rmax 0 E)) E = Rmax 0 E).
  { intros E. unfold ang; cbn [snd]. unfold sdiv, spi, Scalar_R, Conv_R. field. apply PI_neq0. }
  split; [|split; [|split]].
  - intros x y L. rewrite !A. unfold Rmax. destruct (Rle_dec 0 x), (Rle_dec 0 y); lra.
  - rewrite A. unfold Rmax. destruct (Rle_dec 0 3); lra.
  - rewrite A. unfold Rmax. destruct (Rle_dec 0 (-1)); lra.
  - intros x Hx. rewrite A. unfold Rmax. destruct (Rle_dec 0 x); lra.
Qed.

(** ** C31 *)
Theorem C31_evaluations {T} `{Scalar T} `{Conv T} (me : T -> bool -> T * T * T) tol E u :
  exists E' theta points, newton_loop me tol 20 0 E u = Ret (E', theta, points) /\ (length points <= 20)%nat.
Proof.
  destruct (newton_loop_total me tol 20 0 E u ltac:(lia) ltac:(lia) ltac:(lia)) as (E' & t & p & A & B).
  exists E', t, p. split; auto. lia.
Qed.
Theorem C31_exact_root me tol E u d th : 0 <= tol -> me E u = (0, d, th) -> (-2147483648 <= th / PI <= 2147483647 - 1) ->
  exists i, newton me tol E u = Ret (i, E) /\ (0 <= i)%Z /\ (0 <= th -> Rabs (th / PI - IZR i) <= 1 / 2).
Proof.
  intros Ht Hm Hfit. rewrite (newton_exact me tol E u d th Ht Hm). change (iround (th / PI)) with (toint (Rround (th / PI))).
  set (x := th / PI) in *.
  assert (B : Rabs (x - IZR (Rround x)) <= 1 / 2).
  { unfold Rround. destruct (Rleb 0 x) eqn:E0.
    - pose proof (floor_spec (x + / 2)) as Q. unfold Rfloor in Q. unfold Rabs. destruct (Rcase_abs _); lra.
    - pose proof (floor_spec (- x + / 2)) as Q. unfold Rfloor in Q. rewrite opp_IZR. unfold Rabs. destruct (Rcase_abs _); lra. }
  assert (I : (-2147483648 <= Rround x <= 2147483647)%Z).
  { unfold Rabs in B. destruct (Rcase_abs _) in B.
    - assert (K1 : IZR (-2147483649) < IZR (Rround x)) by lra. assert (K2 : IZR (Rround x) < IZR 2147483648) by lra. apply lt_IZR in K1, K2. lia.
    - assert (K1 : IZR (-2147483649) < IZR (Rround x)) by lra. assert (K2 : IZR (Rround x) < IZR 2147483648) by lra. apply lt_IZR in K1, K2. lia. }
  unfold toint, int_ok. destruct (Z.leb_spec (-2147483648) (Rround x)), (Z.leb_spec (Rround x) 2147483647); try lia. cbn [andb oint bind].
  eexists. split; [reflexivity|]. split; [destruct (Z.ltb_spec (Rround x) 0); lia|].
  intros Hth. destruct (Z.ltb_spec (Rround x) 0) as [L|L]; [|exact B].
  exfalso. assert (0 <= x). { unfold x, Rdiv. apply Rmult_le_pos; auto. apply Rlt_le, Rinv_0_lt_compat, PI_RGT_0. }
  assert (L' : (Rround x <= -1)%Z) by lia. apply IZR_le in L'. unfold Rabs in B. destruct (Rcase_abs _) in B; lra.
Qed.
Theorem C31_error_nonneg (me : R -> bool -> R * R * R) tol E e : eigenvalueError me tol E = Ret e -> 0 <= e.
Proof.
  unfold eigenvalueError. destruct (newton me tol E false) as [r|s|s|]; cbn [bind]; try discriminate. intros K; injection K as <-. apply Rabs_pos.
Qed.
Theorem C31_error_zero me tol E d th : 0 <= tol -> me E false = (0, d, th) -> (-2147483648 <= th / PI <= 2147483647 - 1) ->
  eigenvalueError me tol E = Ret 0.
Proof.
  intros Ht Hm Hf. unfold eigenvalueError.
  destruct (C31_exact_root me tol E false d th Ht Hm Hf) as (i & -> & _). cbn [bind snd].
  unfold ssub, sabs, Scalar_R, Conv_R. rewrite Rminus_eq_0, Rabs_R0. reflexivity.
Qed.
Example C31_case : ex_me 2 false = (0, PI * cos (PI * 2), PI * 2) /\ (-2147483648 <= PI * 2 / PI <= 2147483647 - 1).
Proof.
  split.
  - unfold ex_me. rewrite (sin_eq_0_1 (PI * 2)); [reflexivity|]. exists 2%Z. ring.
  - replace (PI * 2 / PI) with 2 by (field; apply PI_neq0). lra.
Qed.

(** ** C23, search part: scaling the boundary conditions multiplies error and derivative by a common
    nonzero factor (C23_matching); every search result is unchanged. *)
Section Scale.
Variables (me me' : R -> bool -> R * R * R) (tol lam : R).
Hypothesis Hl : lam <> 0.
Hypothesis Hme : forall E u, me' E u = (lam * fst (fst (me E u)), lam * snd (fst (me E u)), snd (me E u)).
Lemma ang_scale E : ang me' E = ang me E.
Proof. unfold ang. rewrite Hme. reflexivity. Qed.
Lemma newton_loop_scale n : forall i E u, newton_loop me' tol n i E u = newton_loop me tol n i E u.
Proof.
  induction n as [|n IH]; intros i E u; cbn [newton_loop]; [reflexivity|]. rewrite Hme. destruct (me E u) as [[er der] th]. cbn [fst snd].
  assert (A : sdiv (lam * er) (lam * der) = sdiv er der).
  { unfold sdiv, Scalar_R, Rdiv. destruct (Req_dec der 0) as [-> |D].
    - rewrite Rmult_0_r, Rinv_0. ring.
    - field. auto. }
  rewrite A, IH. reflexivity.
Qed.
Lemma newton_scale E u : newton me' tol E u = newton me tol E u.
Proof. unfold newton. rewrite newton_loop_scale. reflexivity. Qed.
Lemma step_scale Imin Imax it : step me' Imin Imax it = step me Imin Imax it.
Proof.
  unfold step. destruct it as [a ta b tb d]. destruct (oint (iceil ta)); cbn [bind]; try reflexivity.
  destruct (oint (iceil tb)); cbn [bind]; try reflexivity. rewrite ang_scale. reflexivity.
Qed.
Lemma bisect_scale fuel : forall Imin Imax q, bisect me' fuel Imin Imax q = bisect me fuel Imin Imax q.
Proof.
  induction fuel as [|f IH]; intros Imin Imax q; cbn [bisect]; [reflexivity|]. destruct q as [|it q]; [reflexivity|].
  rewrite step_scale. destruct (step me Imin Imax it) as [[]| | |]; cbn [bind]; rewrite ?IH; reflexivity.
Qed.
Theorem C23_search_compute fuel Emin Emax Imin Imax :
  computeEigenvalues me' tol fuel Emin Emax Imin Imax = computeEigenvalues me tol fuel Emin Emax Imin Imax.
Proof.
  unfold computeEigenvalues. rewrite !ang_scale, bisect_scale.
  destruct (Imin <? 0)%Z; [reflexivity|]. destruct (Imax <? Imin)%Z; [reflexivity|].
  destruct (bisect me fuel Imin Imax _) as [r|s|s|]; cbn [bind]; try reflexivity.
  assert (M : forall l, mapM (fun lf => newton me' tol (lc lf) true) l = mapM (fun lf : leaf R => newton me tol (lc lf) true) l).
  { induction l as [|a l IH]; cbn [mapM]; [reflexivity|]. rewrite newton_scale, IH. reflexivity. }
  rewrite M. reflexivity.
Qed.
Theorem C23_search_by_index fuel Imin Imax :
  eigenvaluesByIndex me' tol fuel Imin Imax = eigenvaluesByIndex me tol fuel Imin Imax.
Proof.
  assert (A : forall f a b, find_emax me' f Imin Imax a b = find_emax me f Imin Imax a b).
  { induction f as [|f IH]; intros a b; cbn [find_emax]; [reflexivity|]. rewrite ang_scale.
    destruct (oint _); cbn [bind]; try reflexivity. rewrite IH. reflexivity. }
  assert (B : forall f a b, find_emin me' f Imin Imax a b = find_emin me f Imin Imax a b).
  { induction f as [|f IH]; intros a b; cbn [find_emin]; [reflexivity|]. rewrite ang_scale.
    destruct (oint _); cbn [bind]; try reflexivity. rewrite IH. reflexivity. }
  unfold eigenvaluesByIndex, bracket. rewrite A. destruct (find_emax me fuel Imin Imax _ _) as [r|s|s|]; cbn [bind]; try reflexivity.
  rewrite B. destruct (seqb _ _); [destruct (find_emin me fuel Imin Imax (fst r) (snd r)); cbn [bind]; try reflexivity|cbn [bind]]; apply C23_search_compute.
Qed.
Theorem C23_search_error E : eigenvalueError me' tol E = eigenvalueError me tol E.
Proof. unfold eigenvalueError. rewrite newton_scale. reflexivity. Qed.
End Scale.
Example C23_search_case : forall E u, (fun E u => (2 * sin (PI * E), 2 * (PI * cos (PI * E)), PI * E)) E u =
  (2 * fst (fst (ex_me E u)), 2 * snd (fst (ex_me E u)), snd (ex_me E u)).
Proof. reflexivity. Qed.

(** The matching error of a constructed problem as the search sees it. *)
Definition me_of (calcT : sec -> R -> R -> bool -> Tm) (vm : R) (l : list sec) (m : Z) (lo hi : R) (left right : Y) (E : R) (u : bool) : R * R * R :=
  match matchingError calcT vm l m lo hi E left right u with Ret r => r | _ => (0, 0, 0) end.
Theorem C23_eigenvalues calcT vm l m lo hi left right c d tol fuel : c <> 0 -> d <> 0 ->
  (forall Emin Emax, eigenvalues (me_of calcT vm l m lo hi (yscale c left) (yscale d right)) tol fuel Emin Emax =
     eigenvalues (me_of calcT vm l m lo hi left right) tol fuel Emin Emax) /\
  (forall Imin Imax, eigenvaluesByIndex (me_of calcT vm l m lo hi (yscale c left) (yscale d right)) tol fuel Imin Imax =
     eigenvaluesByIndex (me_of calcT vm l m lo hi left right) tol fuel Imin Imax) /\
  (forall E, eigenvalueError (me_of calcT vm l m lo hi (yscale c left) (yscale d right)) tol E =
     eigenvalueError (me_of calcT vm l m lo hi left right) tol E).
Proof.
  intros Hc Hd. assert (L : c * d <> 0) by (apply Rmult_integral_contrapositive; auto).
  assert (Hme : forall E u, me_of calcT vm l m lo hi (yscale c left) (yscale d right) E u =
     (c * d * fst (fst (me_of calcT vm l m lo hi left right E u)), c * d * snd (fst (me_of calcT vm l m lo hi left right E u)), snd (me_of calcT vm l m lo hi left right E u))).
  { intros E u. unfold me_of. rewrite (C23_matching calcT vm l m lo hi E left right u c d Hc Hd).
    destruct (matchingError calcT vm l m lo hi E left right u) as [r| | |]; cbn [bind fst snd]; rewrite ?Rmult_0_r; reflexivity. }
  split; [|split]; intros.
  - apply (C23_search_compute _ _ tol _ L Hme).
  - apply (C23_search_by_index _ _ tol _ L Hme).
  - apply (C23_search_error _ _ tol _ L Hme).
Qed.
Print Assumptions C25_terminates.
Print Assumptions C25_evaluations.
Print Assumptions C26_sorted.
Print Assumptions C26_lexicographic.
Print Assumptions C27_brackets.
Print Assumptions C27_complete.
Print Assumptions C27_approximate.
Print Assumptions C27_case.
Print Assumptions C28_right_end_refuted.
Print Assumptions C28_left_end_refuted.
Print Assumptions C29_rejected.
Print Assumptions C29_no_result_partial.
Print Assumptions C29_negative_hangs_refuted.
Print Assumptions C30_bracket_limits.
Print Assumptions C30_bracket.
Print Assumptions C30_by_index.
Print Assumptions C31_evaluations.
Print Assumptions C31_exact_root.
Print Assumptions C31_error_zero.
Print Assumptions C23_search_compute.
Print Assumptions C23_search_by_index.
Print Assumptions C23_eigenvalues.
