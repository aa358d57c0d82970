(** The eigenfunction as a function on [lo, hi]: boundary values, continuity, norm. *)
From Coq Require Import String ZArith Reals List Bool Lia Lra.
From Coquelicot Require Import Coquelicot.
From Verif Require Import Base M_Sectors S_Sectors P_Lookup M_Core S_Core S_Eigen P_Prufer P_Core P_Core2 M_Eigen P_Eigen P_Eigen2.
Import ListNotations.
Open Scope R_scope.

Section Values.
Variable calcT : sec -> R -> R -> bool -> Tm.
Variable vm : R.
Variables (l : list sec) (lo hi E : R).
Notation yp := (fun s a b y => sprop_y calcT vm s E y a b true).
Hypothesis PT : partition lo hi l.
Hypothesis OS : forall s, In s l -> smin s < smax s.
Variable M : nat.
Hypothesis HM : (M < length l)%nat.
Variables left right : Y.
Notation Lf := (Lf calcT vm l E).
Notation Rf := (Rf calcT vm l E).
Notation yl := (yl calcT vm l E M left).
Notation yr := (yr calcT vm l E M right).
Notation cl := (cl calcT vm l E M left right).
Notation cr := (cr calcT vm l E M left right).
Notation efin := (ef_in (ef_prop calcT vm E) l (thesteps calcT vm l E M left right)).

Lemma OS' : forall s, In s l -> smin s <= smax s.
Proof using OS. clear HM. intros s Hs. apply OS in Hs. lra. Qed.
Lemma OL : ordered l. Proof using OS. clear HM. apply ord_l, OS'. Qed.

Lemma yprop_clip_up s a b y : smin s < smax s -> a <= smin s -> smax s <= b -> yp s a b y = yp s (smin s) (smax s) y.
Proof using.
  clear. intros O Ha Hb. unfold sprop_y, sprop. cbv zeta.
  assert (G : forall a b, a <= smin s -> smax s <= b -> negb (Rleb (smax s) a && Rleb (smax s) b || Rleb a (smin s) && Rleb b (smin s)) = true).
  { intros a' b' ? ?. apply negb_true_iff, orb_false_iff. split; apply andb_false_iff; [left|right]; apply Rleb_false; lra. }
  rewrite (G a b), (G (smin s) (smax s)) by lra.
  assert (C : forall a, a <= smin s -> Rltb (smin s) a = false) by (intros; apply Rltb_false; lra).
  assert (C2 : forall b, smax s <= b -> Rltb b (smax s) = false) by (intros; apply Rltb_false; lra).
  assert (C3 : forall b, smax s <= b -> Rltb (smin s) b = true) by (intros; apply Rltb_true; lra).
  assert (C4 : forall a, a <= smin s -> Rltb a (smax s) = true) by (intros; apply Rltb_true; lra).
  rewrite (C a), (C (smin s)), (C2 b), (C2 (smax s)), (C3 b), (C3 (smax s)), (C4 a) by lra.
  assert (K : forall d, sh s <= d -> propagateDelta calcT vm s E true d (y, 0) = propagateDelta calcT vm s E true (sh s) (y, 0)).
  { intros d Hd. destruct (Req_dec d (sh s)) as [-> |N]; [reflexivity|].
    unfold propagateDelta. assert (0 < sh s) by (unfold sh; lra). destruct (dir_eqb (sdir s) Dbwd).
    - assert (Rleb 0 (d * -1) = false) as -> by (apply Rleb_false; lra). assert (Rleb 0 (sh s * -1) = false) as -> by (apply Rleb_false; lra).
      replace (- (d * -1)) with d by ring. replace (- (sh s * -1)) with (sh s) by ring.
      assert (Rltb (sh s) d = true) as -> by (apply Rltb_true; lra). assert (Rltb (sh s) (sh s) = false) as -> by (apply Rltb_false; lra). reflexivity.
    - assert (Rleb 0 d = true) as -> by (apply Rleb_true; lra). assert (Rleb 0 (sh s) = true) as -> by (apply Rleb_true; lra).
      assert (Rltb (sh s) d = true) as -> by (apply Rltb_true; lra). assert (Rltb (sh s) (sh s) = false) as -> by (apply Rltb_false; lra). reflexivity. }
  fold (sh s). destruct (dir_eqb (sdir s) Dfwd).
  - rewrite K by (unfold sh; lra). reflexivity.
  - rewrite K by (unfold sh; lra). reflexivity.
Qed.
Lemma yprop_clip_down s a b y : smin s < smax s -> b <= smin s -> smax s <= a -> yp s a b y = yp s (smax s) (smin s) y.
Proof using.
  clear. intros O Ha Hb. unfold sprop_y, sprop. cbv zeta.
  assert (G : forall a b, b <= smin s -> smax s <= a -> negb (Rleb (smax s) a && Rleb (smax s) b || Rleb a (smin s) && Rleb b (smin s)) = true).
  { intros a' b' ? ?. apply negb_true_iff, orb_false_iff. split; apply andb_false_iff; [right|left]; apply Rleb_false; lra. }
  rewrite (G a b), (G (smax s) (smin s)) by lra.
  assert (C : forall a, a <= smin s -> Rltb (smin s) a = false) by (intros; apply Rltb_false; lra).
  assert (C2 : forall b, smax s <= b -> Rltb b (smax s) = false) by (intros; apply Rltb_false; lra).
  assert (C3 : forall b, smax s <= b -> Rltb (smin s) b = true) by (intros; apply Rltb_true; lra).
  assert (C4 : forall a, a <= smin s -> Rltb a (smax s) = true) by (intros; apply Rltb_true; lra).
  rewrite (C b), (C (smin s)), (C2 a), (C2 (smax s)), (C3 a), (C3 (smax s)), (C4 b) by lra.
  assert (K : forall d, d <= - sh s -> propagateDelta calcT vm s E true d (y, 0) = propagateDelta calcT vm s E true (- sh s) (y, 0)).
  { intros d Hd. destruct (Req_dec d (- sh s)) as [-> |N]; [reflexivity|].
    unfold propagateDelta. assert (0 < sh s) by (unfold sh; lra). destruct (dir_eqb (sdir s) Dbwd).
    - assert (Rleb 0 (d * -1) = true) as -> by (apply Rleb_true; lra). assert (Rleb 0 (- sh s * -1) = true) as -> by (apply Rleb_true; lra).
      assert (Rltb (sh s) (d * -1) = true) as -> by (apply Rltb_true; lra). assert (Rltb (sh s) (- sh s * -1) = false) as -> by (apply Rltb_false; lra).
      replace (- sh s * -1) with (sh s) by ring. reflexivity.
    - assert (Rleb 0 d = false) as -> by (apply Rleb_false; lra). assert (Rleb 0 (- sh s) = false) as -> by (apply Rleb_false; lra).
      rewrite Ropp_involutive.
      assert (Rltb (sh s) (- d) = true) as -> by (apply Rltb_true; lra). assert (Rltb (sh s) (sh s) = false) as -> by (apply Rltb_false; lra). reflexivity. }
  destruct (dir_eqb (sdir s) Dfwd).
  - rewrite K by (unfold sh; lra). rewrite (K (smin s - smax s)) by (unfold sh; lra). reflexivity.
  - rewrite K by (unfold sh; lra). rewrite (K (smin s - smax s)) by (unfold sh; lra). reflexivity.
Qed.
Lemma fold_eq {A B} (f g : A -> B -> A) ss : (forall y s, In s ss -> f y s = g y s) -> forall y, fold_left f ss y = fold_left g ss y.
Proof using.
  clear. induction ss as [|s ss IH]; intros K y; cbn [fold_left]; [reflexivity|]. rewrite K by (cbn; auto). apply IH. intros; apply K; cbn; auto.
Qed.
Lemma sec_nth s i : nth_error l i = Some s -> In s l. Proof using. clear. apply nth_error_In. Qed.
Lemma below i s : nth_error l i = Some s -> forall k t, nth_error l k = Some t -> (k <= i)%nat -> smax t <= smax s /\ smin t <= smin s.
Proof using PT OS.
  clear HM. intros Hi k t Hk Hki. destruct PT as [_ C]. destruct (Nat.eq_dec k i) as [-> |].
  - rewrite Hi in Hk. injection Hk as <-. lra.
  - destruct (chain_mono l lo hi k i t s C OL ltac:(lia) Hk Hi) as [M1 M2]. change (Rleb (smin t) (smin s) = true) in M1. change (Rleb (smax t) (smax s) = true) in M2.
    apply Rleb_true in M1, M2. lra.
Qed.
Lemma above i s : nth_error l i = Some s -> forall k t, nth_error l k = Some t -> (i < k)%nat -> smax s <= smin t.
Proof using PT OS.
  clear HM. intros Hi k t Hk Hki. destruct (nth_error l (S i)) as [s'|] eqn:E'.
  - destruct PT as [_ C]. pose proof (chain_nth l lo hi i s s' C Hi E'). destruct (below k t Hk (S i) s' E' ltac:(lia)). lra.
  - apply nth_error_None in E'. assert (k < length l)%nat by (apply nth_error_Some; congruence). lia.
Qed.

(** The stored solutions at the matching point are the propagated ones. *)
Lemma prop_vals : exists sm t1 t2, vget l (Z.of_nat M) = Ret sm /\
  propagate calcT vm l lo hi E left lo (smax sm) true = Ret (yl, t1) /\ propagate calcT vm l lo hi E right hi (smax sm) true = Ret (yr, t2).
Proof.
  destruct (vget_in l (Z.of_nat M) ltac:(lia)) as (sm & Vm & Em). rewrite Nat2Z.id in Em.
  pose proof (chain_order l lo hi (proj2 PT) OS') as [Hlh Hin].
  pose proof (Hin sm (sec_nth _ _ Em)) as [I1 I2]. pose proof (OS sm (sec_nth _ _ Em)).
  destruct (propagate_full calcT vm l lo hi PT lo (smax sm) OS' ltac:(lra) ltac:(lra) E left true) as [t1 P1].
  destruct (propagate_full calcT vm l lo hi PT hi (smax sm) OS' ltac:(lra) ltac:(lra) E right true) as [t2 P2].
  assert (A : runY calcT vm (if Rleb lo (smax sm) then l else rev l) E lo (smax sm) true left = yl).
  { assert (Rleb lo (smax sm) = true) as -> by (apply Rleb_true; lra). rewrite <- (firstn_skipn (S M) l) at 1. rewrite runY_app.
    rewrite runY_noop.
    - unfold runY, P_Eigen2.yl, P_Eigen2.Lf. apply fold_eq. intros y s Hs. apply In_nth_error in Hs. destruct Hs as [k Hk].
      assert (Lk : (k < S M)%nat). { assert (k < length (firstn (S M) l))%nat by (apply nth_error_Some; congruence). rewrite firstn_length in H0. lia. }
      assert (Hk' : nth_error l k = Some s). { rewrite <- Hk. rewrite <- (firstn_skipn (S M) l) at 1. apply nth_error_app1. rewrite firstn_length. lia. }
      apply yprop_clip_up; [apply OS; eapply sec_nth; eauto|apply Hin; eapply sec_nth; eauto|]. apply (below M sm Em k s Hk'). lia.
    - intros s Hs. right. apply In_nth_error in Hs. destruct Hs as [k Hk]. rewrite nth_skipn in Hk. pose proof (above M sm Em _ s Hk ltac:(lia)). lra. }
  assert (B : runY calcT vm (if Rleb hi (smax sm) then l else rev l) E hi (smax sm) true right = yr).
  { destruct (Rleb hi (smax sm)) eqn:Q; [apply Rleb_true in Q|apply Rleb_false in Q].
    - assert (EL : S M = length l).
      { destruct (Nat.eq_dec (S M) (length l)); auto. exfalso. destruct (nth_error l (S M)) as [s'|] eqn:E'; [|apply nth_error_None in E'; lia].
        pose proof (above M sm Em _ s' E' ltac:(lia)). pose proof (Hin s' (sec_nth _ _ E')). pose proof (OS s' (sec_nth _ _ E')). lra. }
      unfold P_Eigen2.yr. rewrite EL, Rf_end. apply runY_noop. intros s Hs. left. pose proof (Hin s Hs). lra.
    - rewrite <- (firstn_skipn (S M) l) at 1. rewrite rev_app_distr, runY_app. rewrite runY_noop.
      + unfold runY, P_Eigen2.yr, P_Eigen2.Rf. apply fold_eq. intros y s Hs. apply in_rev, In_nth_error in Hs. destruct Hs as [k Hk]. rewrite nth_skipn in Hk.
        apply yprop_clip_down; [apply OS; eapply sec_nth; eauto| |apply Hin; eapply sec_nth; eauto]. apply (above M sm Em _ s Hk). lia.
      + intros s Hs. left. apply in_rev, In_nth_error in Hs. destruct Hs as [k Hk].
        assert (Lk : (k < S M)%nat). { assert (k < length (firstn (S M) l))%nat by (apply nth_error_Some; congruence). rewrite firstn_length in H0. lia. }
        assert (Hk' : nth_error l k = Some s). { rewrite <- Hk. rewrite <- (firstn_skipn (S M) l) at 1. apply nth_error_app1. rewrite firstn_length. lia. }
        pose proof (below M sm Em k s Hk' ltac:(lia)). lra. }
  exists sm, t1, t2. rewrite P1, P2, A, B. auto.
Qed.
(** The matching error in terms of the stored solutions. *)
Lemma matching_vals : exists th, matchingError calcT vm l (Z.of_nat M) lo hi E left right true =
  Ret (y1 yl * y0 yr - y1 yr * y0 yl, e1 yl * y0 yr + y1 yl * e0 yr - (e1 yr * y0 yl + y1 yr * e0 yl), th).
Proof.
  destruct prop_vals as (sm & t1 & t2 & Vm & P1 & P2). unfold matchingError. rewrite Vm. cbn [bind]. rewrite P1. cbn [bind]. rewrite P2. cbn [bind].
  eexists. reflexivity.
Qed.

(** Pointwise evaluation reads the sector containing the point. *)
Lemma at_sector x : lo <= x <= hi -> exists j s, nth_error l j = Some s /\ smin s <= x <= smax s /\
  (forall s', nth_error l (S j) = Some s' -> x < smin s') /\
  eigenfunction_at calcT vm l (Z.of_nat M) E lo hi left right x = efin (Z.of_nat j) x.
Proof.
  intros Hx. unfold eigenfunction_at. rewrite steps_val by auto. cbn [bind]. fold (thesteps calcT vm l E M left right).
  assert (O : slt x lo || slt hi x = false). { cbn. apply orb_false_iff. split; apply Rltb_false; lra. }
  destruct (scalar_where (ef_prop calcT vm E) (0, 0) l lo hi (thesteps calcT vm l E M left right) PT OL (steps_length calcT vm l E M HM left right) x (I : @ok R _ OrderLaws_R x) O) as (j & s & Hj & Es & C & Nx & ->).
  exists (Z.to_nat j), s. split; auto. split; [apply contains_R; auto|]. split; [|rewrite Z2Nat.id by lia; reflexivity].
  intros s' E'. destruct Nx as [Nx|(s2 & E2 & L)].
  - assert (S (Z.to_nat j) < length l)%nat by (apply nth_error_Some; congruence). lia.
  - replace (Z.to_nat (j + 1)) with (S (Z.to_nat j)) in E2 by lia. rewrite E' in E2. injection E2 as <-. apply Rltb_true; auto.
Qed.
Lemma at_interior i s x : nth_error l i = Some s -> smin s <= x < smax s ->
  eigenfunction_at calcT vm l (Z.of_nat M) E lo hi left right x = efin (Z.of_nat i) x.
Proof.
  intros Es Hx. pose proof (chain_order l lo hi (proj2 PT) OS') as [Hlh Hin]. pose proof (Hin s (sec_nth _ _ Es)).
  destruct (at_sector x ltac:(lra)) as (j & t & Et & Ht & Nx & ->). f_equal. f_equal.
  destruct (Nat.lt_trichotomy j i) as [L|[->|L]]; auto; exfalso.
  - destruct (nth_error l (S j)) as [s'|] eqn:E'.
    + specialize (Nx s' eq_refl). destruct (below i s Es (S j) s' E' ltac:(lia)). lra.
    + apply nth_error_None in E'. assert (i < length l)%nat by (apply nth_error_Some; congruence). lia.
  - pose proof (above i s Es j t Et L). lra.
Qed.
Lemma at_lo : eigenfunction_at calcT vm l (Z.of_nat M) E lo hi left right lo = efin 0 lo.
Proof.
  destruct (first_sec l lo hi PT) as (s & Es & Em). pose proof (OS s (sec_nth _ _ Es)). apply (at_interior 0 s lo Es). lra.
Qed.
Lemma at_hi : eigenfunction_at calcT vm l (Z.of_nat M) E lo hi left right hi = efin (Z.of_nat (length l) - 1) hi.
Proof.
  pose proof (chain_order l lo hi (proj2 PT) OS') as [Hlh Hin].
  destruct (at_sector hi ltac:(lra)) as (j & t & Et & Ht & Nx & ->). f_equal.
  assert (j < length l)%nat by (apply nth_error_Some; congruence).
  destruct (nth_error l (S j)) as [s'|] eqn:E'; [|apply nth_error_None in E'; lia].
  specialize (Nx s' eq_refl). pose proof (Hin s' (sec_nth _ _ E')). pose proof (OS s' (sec_nth _ _ E')). lra.
Qed.

Hypothesis Hd : directions_ok l (Z.of_nat M).
(** Continuity across interior boundaries. *)
Hypothesis H0 : y1 yl * y0 yr - y1 yr * y0 yl = 0.
Hypothesis Nl : nonzero yl.
Hypothesis Nr : nonzero yr.
Lemma continuous_at i s s' : nth_error l i = Some s -> nth_error l (S i) = Some s' ->
  smin s' = smax s /\ efin (Z.of_nat i) (smax s) = efin (Z.of_nat (S i)) (smin s').
Proof.
  intros Es Es'. destruct PT as [_ C]. pose proof (chain_nth l lo hi i s s' C Es Es') as K. split; auto.
  destruct (Nat.lt_trichotomy i M) as [L|[->|L]].
  - eapply agree_l; eauto.
  - destruct (agree_m calcT vm l E M HM left right Hd s s' Es Es') as [-> ->]. f_equal. apply match_vals; auto.
  - eapply agree_r; eauto.
Qed.
(** Evaluation in any sector containing the point gives the same value. *)
Lemma any_sector j s x : nth_error l j = Some s -> smin s <= x <= smax s ->
  eigenfunction_at calcT vm l (Z.of_nat M) E lo hi left right x = efin (Z.of_nat j) x.
Proof.
  intros Es Hx. destruct (Rlt_le_dec x (smax s)) as [L|L]; [eapply at_interior; eauto; lra|].
  assert (x = smax s) by lra. subst x. assert (j < length l)%nat by (apply nth_error_Some; congruence).
  destruct (nth_error l (S j)) as [s'|] eqn:E'.
  - destruct (continuous_at j s s' Es E') as [K ->]. rewrite <- K. pose proof (OS s' (sec_nth _ _ E')). eapply at_interior; eauto. lra.
  - apply nth_error_None in E'. destruct (last_sec l lo hi PT) as (t & Et & Mt). replace (Z.to_nat (Z.of_nat (length l) - 1)) with j in Et by lia.
    rewrite Es in Et. injection Et as <-. rewrite Mt, at_hi. f_equal. lia.
Qed.
End Values.

(** ** Norm *)
Section Norm.
Variable calcT : sec -> R -> R -> bool -> Tm.
Variable vm : R.
Variables (l : list sec) (lo hi E : R).
Notation yp := (fun s a b y => sprop_y calcT vm s E y a b true).
Hypothesis PT : partition lo hi l.
Hypothesis OS : forall s, In s l -> smin s < smax s.
Variable M : nat.
Hypothesis HM : (M < length l)%nat.
Hypothesis Hd : directions_ok l (Z.of_nat M).
Variables left right : Y.
Variable V : sec -> R -> R.
Hypothesis EX : forall s, In s l -> exact_propagator (fun y a b => yp s a b y) (V s) E (smin s) (smax s).
Notation Lf := (Lf calcT vm l E).
Notation Rf := (Rf calcT vm l E).
Notation yl := (yl calcT vm l E M left).
Notation yr := (yr calcT vm l E M right).
Notation cl := (cl calcT vm l E M left right).
Notation cr := (cr calcT vm l E M left right).
Notation efin := (ef_in (ef_prop calcT vm E) l (thesteps calcT vm l E M left right)).
Definition Wr (y : Y) : R := e0 y * y1 y - e1 y * y0 y.

Lemma Wr_deriv (U : R -> Y) v x : solves_at U v E x -> is_derive (fun t => Wr (U t)) x (y0 (U x) * y0 (U x)).
Proof using.
  clear. intros (A & B & C & D). unfold Wr. evar_last.
  - apply is_derive_minusR; apply is_derive_multR; eassumption.
  - cbn. ring.
Qed.
Lemma Wr_int (U : R -> Y) v a b c : a < b -> (forall x, a <= x <= b -> solves_at U v E x) ->
  is_RInt (fun x => (c * y0 (U x)) * (c * y0 (U x))) a b (c * c * (Wr (U b) - Wr (U a))).
Proof using.
  clear. intros L S.
  assert (I1 : is_RInt (fun x => y0 (U x) * y0 (U x)) a b (minus (Wr (U b)) (Wr (U a)))).
  { apply (is_RInt_derive (fun t => Wr (U t)) (fun x => y0 (U x) * y0 (U x))); intros x Hx; rewrite Rmin_left, Rmax_right in Hx by lra.
    - eapply Wr_deriv; eauto.
    - destruct (S x Hx) as (A & _). assert (CU : continuous (fun x => y0 (U x)) x) by (apply @ex_derive_continuous; eexists; exact A). apply (continuous_mult (fun x => y0 (U x)) (fun x => y0 (U x)) x CU CU). }
  apply (is_RInt_scal _ _ _ (c * c)) in I1. eapply is_RInt_ext; [|exact I1].
  intros x _. unfold scal; cbn. unfold mult; cbn. ring.
Qed.
Lemma Wr_mono (U : R -> Y) v a b : a < b -> (forall x, a <= x <= b -> solves_at U v E x) -> Wr (U a) <= Wr (U b).
Proof using.
  clear. intros L S.
  destruct (MVT_gen (fun t => Wr (U t)) a b (fun x => y0 (U x) * y0 (U x))) as (c & Hc & Ec).
  - intros x Hx. rewrite Rmin_left, Rmax_right in Hx by lra. eapply Wr_deriv; eauto. apply S. lra.
  - intros x Hx. rewrite Rmin_left, Rmax_right in Hx by lra. apply derivable_continuous_pt. eexists. apply is_derive_Reals. eapply Wr_deriv; eauto.
  - pose proof (Rle_0_sqr (y0 (U c))) as Q. unfold Rsqr in Q. assert (0 <= y0 (U c) * y0 (U c) * (b - a)) by (apply Rmult_le_pos; lra). lra.
Qed.
(** If the integral over a sector vanishes, the solution is zero at its left end. *)
Lemma Wr_strict (U : R -> Y) v a b : a < b -> (forall x, a <= x <= b -> solves_at U v E x) -> nonzero (U a) -> Wr (U a) < Wr (U b).
Proof using.
  clear. intros L S N. destruct (Rle_lt_or_eq_dec _ _ (Wr_mono U v a b L S)) as [|K]; auto. exfalso.
  assert (Cst : forall x, a <= x <= b -> Wr (U x) = Wr (U a)).
  { intros x Hx. apply Rle_antisym.
    - destruct (Req_dec x b) as [-> |]; [lra|]. rewrite K. apply (Wr_mono U v x b); [lra|]. intros; apply S; lra.
    - destruct (Req_dec x a) as [-> |]; [lra|]. apply (Wr_mono U v a x); [lra|]. intros; apply S; lra. }
  assert (Z : forall x, a < x < b -> y0 (U x) = 0).
  { intros x Hx. pose proof (Wr_deriv U v x (S x ltac:(lra))) as D.
    assert (D2 : is_derive (fun t => Wr (U t)) x 0).
    { apply (is_derive_ext_loc (fun _ => Wr (U a))); [|apply @is_derive_const].
      assert (P : 0 < Rmin (x - a) (b - x)) by (apply Rmin_pos; lra). exists (mkposreal _ P). intros t Ht. symmetry. apply Cst.
      unfold ball in Ht; cbn in Ht. unfold AbsRing_ball, abs, minus, plus, opp in Ht; cbn in Ht.
      pose proof (Rmin_l (x - a) (b - x)). pose proof (Rmin_r (x - a) (b - x)). apply Rabs_def2 in Ht. lra. }
    pose proof (is_derive_unique _ _ _ D) as D1. rewrite (is_derive_unique _ _ _ D2) in D1. symmetry in D1. apply Rmult_integral in D1. tauto. }
  assert (Z1 : forall x, a < x < b -> y1 (U x) = 0).
  { intros x Hx. destruct (S x ltac:(lra)) as (D & _).
    assert (D2 : is_derive (fun t => y0 (U t)) x 0).
    { apply (is_derive_ext_loc (fun _ => 0)); [|apply @is_derive_const].
      assert (P : 0 < Rmin (x - a) (b - x)) by (apply Rmin_pos; lra). exists (mkposreal _ P). intros t Ht. symmetry. apply Z.
      unfold ball in Ht; cbn in Ht. unfold AbsRing_ball, abs, minus, plus, opp in Ht; cbn in Ht.
      pose proof (Rmin_l (x - a) (b - x)). pose proof (Rmin_r (x - a) (b - x)). apply Rabs_def2 in Ht. lra. }
    rewrite <- (is_derive_unique _ _ _ D), <- (is_derive_unique _ _ _ D2). reflexivity. }
  assert (LIM : forall g : R -> R, ex_derive g a -> (forall x, a < x < b -> g x = 0) -> g a = 0).
  { intros g Dg Zg. destruct (Req_dec (g a) 0) as [|Ng]; auto. exfalso.
    pose proof (ex_derive_continuous g a Dg) as Cg. pose proof (proj1 (filterlim_locally (F := locally a) g (g a)) Cg) as Cg'. clear Cg. rename Cg' into Cg.
    specialize (Cg (mkposreal _ (Rabs_pos_lt _ Ng))). destruct Cg as [d Hd].
    pose proof (Rmin_l (d / 2) ((b - a) / 2)). pose proof (Rmin_r (d / 2) ((b - a) / 2)). pose proof (cond_pos d).
    assert (P : 0 < Rmin (d / 2) ((b - a) / 2)) by (apply Rmin_pos; lra).
    set (x := a + Rmin (d / 2) ((b - a) / 2)) in *.
    specialize (Hd x). assert (B : ball a d x). { unfold ball; cbn. unfold AbsRing_ball, abs, minus, plus, opp; cbn. unfold x. rewrite Rabs_pos_eq; lra. }
    specialize (Hd B). unfold ball in Hd; cbn in Hd. unfold AbsRing_ball, abs, minus, plus, opp in Hd; cbn in Hd.
    rewrite Zg in Hd by (unfold x; lra). rewrite Rplus_0_l, Rabs_Ropp in Hd. lra. }
  destruct (S a ltac:(lra)) as (D0 & D1 & _).
  destruct N as [N|N]; apply N; apply (LIM (fun t => _ (U t))); auto; eexists; eauto.
Qed.


Notation F := (ef_value calcT vm l (Z.of_nat M) E lo hi left right).
(** Integral over one sector. *)
Lemma int_l i s : (i <= M)%nat -> nth_error l i = Some s ->
  is_RInt (fun x => F x * F x) (smin s) (smax s) (cl * cl * (Wr (Lf left (S i)) - Wr (Lf left i))) /\
  Wr (Lf left i) <= Wr (Lf left (S i)) /\ (nonzero (Lf left i) -> Wr (Lf left i) < Wr (Lf left (S i))).
Proof.
  intros Hi Es. pose proof (sec_nth l s i Es) as Is. pose proof (OS s Is) as O.
  destruct (EX s Is (Lf left i) (smin s) ltac:(lra)) as (U & U0 & US).
  assert (Q : Lf left (S i) = U (smax s)). { rewrite (Lf_S calcT vm l E left i s Es). apply US. lra. }
  rewrite Q, <- U0. split; [|split].
  - eapply is_RInt_ext; [|apply (Wr_int U (V s) (smin s) (smax s) cl O); intros; apply US; auto].
    intros x Hx. rewrite Rmin_left, Rmax_right in Hx by lra. unfold ef_value.
    rewrite (at_interior calcT vm l lo hi E PT OS M HM left right i s x Es) by lra.
    rewrite (efin_l calcT vm l E M HM left right Hd i s x Hi Es). destruct (US x ltac:(lra)) as [_ P]. cbn beta in P. rewrite P.
    unfold val2, yscale; cbn [fst y0]. match goal with |- ?a = ?b => change (@eq R a b) end. ring.
  - apply (Wr_mono U (V s)); auto. intros; apply US; auto.
  - intros N. apply (Wr_strict U (V s)); auto. intros; apply US; auto.
Qed.
Lemma int_r i s : (M < i)%nat -> nth_error l i = Some s ->
  is_RInt (fun x => F x * F x) (smin s) (smax s) (cr * cr * (Wr (Rf right (S i)) - Wr (Rf right i))) /\
  Wr (Rf right i) <= Wr (Rf right (S i)).
Proof.
  intros Hi Es. pose proof (sec_nth l s i Es) as Is. pose proof (OS s Is) as O.
  destruct (EX s Is (Rf right (S i)) (smax s) ltac:(lra)) as (U & U0 & US).
  assert (Q : Rf right i = U (smin s)). { rewrite (Rf_S calcT vm l E right i s Es). apply US. lra. }
  rewrite Q, <- U0. split.
  - eapply is_RInt_ext; [|apply (Wr_int U (V s) (smin s) (smax s) cr O); intros; apply US; auto].
    intros x Hx. rewrite Rmin_left, Rmax_right in Hx by lra. unfold ef_value.
    rewrite (at_interior calcT vm l lo hi E PT OS M HM left right i s x Es) by lra.
    rewrite (efin_r calcT vm l E M HM left right Hd i s x Hi Es). destruct (US x ltac:(lra)) as [_ P]. cbn beta in P. rewrite P.
    unfold val2, yscale; cbn [fst y0]. match goal with |- ?a = ?b => change (@eq R a b) end. ring.
  - apply (Wr_mono U (V s)); auto. intros; apply US; auto.
Qed.
Definition total (k : nat) : R :=
  if (k <=? S M)%nat then cl * cl * (Wr (Lf left k) - Wr left) else cl * cl * (Wr yl - Wr left) + cr * cr * (Wr (Rf right k) - Wr yr).
(** Integral over the first k + 1 sectors. *)
Lemma int_total k : forall s, nth_error l k = Some s -> is_RInt (fun x => F x * F x) lo (smax s) (total (S k)).
Proof.
  induction k as [|k IH]; intros s Es.
  - destruct (first_sec l lo hi PT) as (s0 & E0 & M0). rewrite Es in E0. injection E0 as <-. pose proof (proj1 (int_l 0 s ltac:(lia) Es)) as I0. rewrite M0 in I0. exact I0.
  - assert (Lk : (S k < length l)%nat) by (apply nth_error_Some; congruence).
    destruct (nth_error l k) as [t|] eqn:Et; [|apply nth_error_None in Et; lia].
    pose proof (chain_nth l lo hi k t s (proj2 PT) Et Es) as K.
    pose proof (fun c l2 => is_RInt_Chasles (fun x => F x * F x) lo (smax t) c (total (S k)) l2 (IH t eq_refl)) as CH. rewrite <- K in CH.
    destruct (le_lt_dec (S k) M) as [L|L].
    + specialize (CH (smax s) _ (proj1 (int_l (S k) s L Es))). replace (total (S (S k))) with (plus (total (S k)) (cl * cl * (Wr (Lf left (S (S k))) - Wr (Lf left (S k))))); auto.
      unfold total. destruct (Nat.leb_spec (S (S k)) (S M)); [|lia]. destruct (Nat.leb_spec (S k) (S M)); [|lia]. match goal with |- plus ?a ?b = ?c => change (a + b = c) end. ring.
    + specialize (CH (smax s) _ (proj1 (int_r (S k) s L Es))). replace (total (S (S k))) with (plus (total (S k)) (cr * cr * (Wr (Rf right (S (S k))) - Wr (Rf right (S k))))); auto.
      unfold total. destruct (Nat.leb_spec (S (S k)) (S M)); [lia|]. match goal with |- plus ?a ?b = ?c => change (a + b = c) end. destruct (Nat.leb_spec (S k) (S M)).
      * assert (KM : k = M) by lia. rewrite KM. unfold P_Eigen2.yl, P_Eigen2.yr. match goal with |- ?a = ?b => change (@eq R a b) end. ring.
      * ring.
Qed.
Lemma Wl_mono k : (k <= M)%nat -> nonzero left -> Wr left < Wr (Lf left (S k)).
Proof.
  intros Hk N. induction k as [|k IH].
  - destruct (nth_error l 0) as [s|] eqn:Es; [|apply nth_error_None in Es; lia].
    apply (proj2 (proj2 (int_l 0 s Hk Es))). exact N.
  - destruct (nth_error l (S k)) as [s|] eqn:Es; [|apply nth_error_None in Es; lia].
    pose proof (proj1 (proj2 (int_l (S k) s Hk Es))). specialize (IH ltac:(lia)). lra.
Qed.
Lemma Wr_mono_r k : (k < length l - M)%nat -> Wr (Rf right (length l - k)) <= Wr right.
Proof.
  intros Hk. induction k as [|k IH].
  - rewrite Nat.sub_0_r, Rf_end. lra.
  - destruct (nth_error l (length l - S k)) as [s|] eqn:Es; [|apply nth_error_None in Es; lia].
    pose proof (proj2 (int_r (length l - S k) s ltac:(lia) Es)) as P. replace (S (length l - S k)) with (length l - k)%nat in P by lia.
    specialize (IH ltac:(lia)). lra.
Qed.
Lemma norm2_pos : Wr left = 0 -> Wr right = 0 -> nonzero left -> 0 < norm2 yl yr (ratio yl yr).
Proof.
  intros WL WR N. pose proof (Wl_mono M ltac:(lia) N) as A. pose proof (Wr_mono_r (length l - S M) ltac:(lia)) as B.
  replace (length l - (length l - S M))%nat with (S M) in B by lia.
  fold yl in A. fold yr in B. unfold norm2. fold (Wr yl) (Wr yr).
  pose proof (Rle_0_sqr (ratio yl yr)) as Q. unfold Rsqr in Q.
  assert (0 <= ratio yl yr * ratio yl yr * - Wr yr) by (apply Rmult_le_pos; lra). lra.
Qed.
Lemma norm_one : Wr left = 0 -> Wr right = 0 -> nonzero left -> is_RInt (fun x => F x * F x) lo hi 1.
Proof.
  intros WL WR N. destruct (last_sec l lo hi PT) as (s & Es & Ms). pose proof (int_total _ s Es) as IT. rewrite Ms in IT.
  replace 1 with (total (S (Z.to_nat (Z.of_nat (length l) - 1)))); [exact IT|]. clear IT.
  replace (S (Z.to_nat (Z.of_nat (length l) - 1))) with (length l) by lia.
  pose proof (norm2_pos WL WR N) as NP.
  assert (T : cl * cl * (Wr yl - Wr left) + cr * cr * (Wr right - Wr yr) = 1).
  { rewrite WL, WR. unfold P_Eigen2.cl, P_Eigen2.cr, norm_of. rewrite (proj2 (Rltb_true _ _) NP).
    pose proof (sqrt_sqrt _ (Rlt_le _ _ NP)) as SS. pose proof (sqrt_lt_R0 _ NP).
    set (q := sqrt (norm2 yl yr (ratio yl yr))) in *. set (r := ratio yl yr) in *.
    assert (SS' : q * q = Wr yl - r * r * Wr yr) by (rewrite SS; unfold norm2, Wr; ring).
    transitivity ((Wr yl - r * r * Wr yr) / (q * q)); [field; lra|]. rewrite <- SS'. field. lra. }
  unfold total. destruct (Nat.leb_spec (length l) (S M)).
  - assert (KE : length l = S M) by lia. rewrite KE. fold yl. rewrite <- T.
    assert (YR : yr = right) by (unfold P_Eigen2.yr; rewrite <- KE; apply Rf_end). rewrite YR. ring.
  - rewrite Rf_end. exact T.
Qed.
(** Exact propagators never turn a non-zero solution into zero. *)
End Norm.
