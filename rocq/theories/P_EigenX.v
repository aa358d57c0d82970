(** The computed eigenfunction against a solution of the Schroedinger equation: proofs for C76. *)
From Coq Require Import String ZArith Reals.
From Coquelicot Require Import Coquelicot.
From Coq Require Import List Bool Lia Lra.
From Verif Require Import Base M_Sectors S_Sectors P_Lookup M_Core S_Core S_Eigen S_Accuracy S_Zeros P_Prufer P_Core P_Core2 M_Eigen P_Eigen P_Eigen2 P_Eigen3 P_Global2 P_Count P_Count2.
Import ListNotations.
Open Scope R_scope.

Section Exact.
Variable calcT : sec -> R -> R -> bool -> Tm.
Variable vm : R.
Variables (l : list sec) (lo hi E : R) (V : R -> R).
Hypothesis PT : partition lo hi l.
Hypothesis OS : forall s, In s l -> smin s < smax s.
Variable M : nat.
Hypothesis HM : (M < length l)%nat.
Hypothesis Hd : directions_ok l (Z.of_nat M).
Variables z z' : R -> R.
Hypothesis Sol : solution V E lo hi l z z'.
Notation yp := (fun s a b y => sprop_y calcT vm s E y a b true).

(** the value and slope of y are k times those of z at x *)
Definition times (k : R) (y : Y) (x : R) : Prop := y0 y = k * z x /\ y1 y = k * z' x.

(** one sector, from the end where it starts *)
Lemma fwd_value : forall s k y x, In s l -> sdir s = Dfwd -> exact_to calcT V E true s x -> smin s <= x <= smax s ->
  times k y (smin s) -> times k (yp s (smin s) x y) x.
Proof using PT OS Sol.
  intros s k y x Hs D X Hx Hy. pose proof (OS s Hs) as O.
  destruct (Req_dec x (smin s)) as [->|N]; [rewrite (yp_min calcT vm E) by lra; exact Hy|].
  assert (sol_on V E (smin s) (smax s) (fun t => k * z t) (fun t => k * z' t)) as SK.
  { destruct (sol_sector l lo hi PT V E z z' Sol OS s Hs) as [C D']. split.
    - intros t Ht. destruct (C t Ht) as [C1 C2]. split; apply (continuous_scal_r (K := R_AbsRing) (V := R_NormedModule) k); assumption.
    - intros t Ht. destruct (D' t Ht) as [D1 D2]. split.
      + apply (is_derive_scal z t k _ D1).
      + replace ((V t - E) * (k * z t)) with (k * ((V t - E) * z t)) by ring. apply (is_derive_scal z' t k _ D2). }
  unfold sprop_y, sprop. cbv zeta.
  assert ((Rleb (smax s) (smin s) && Rleb (smax s) x) || (Rleb (smin s) (smin s) && Rleb x (smin s)) = false) as ->.
  { apply orb_false_iff. split; apply andb_false_iff; [left|right]; apply Rleb_false; lra. }
  cbn [negb]. rewrite D. cbn [dir_eqb].
  assert (Rltb (smin s) (smin s) = false) as -> by (apply Rltb_false; lra). assert (Rltb (smin s) x = true) as -> by (apply Rltb_true; lra).
  change (fst (propagateDelta calcT vm s E true (x - smin s) (y, 0))) with (ydelta calcT vm s E true (x - smin s) y).
  rewrite ydelta_fwd by (auto; lra).
  pose proof (exact_mul calcT V E (fun t => k * z t) (fun t => k * z' t) true s x y (or_introl D) X SK) as Q. rewrite D in Q. specialize (Q Hy).
  unfold rv in Q. rewrite D in Q. assert (P_Global2.cl s x = x) as K by (unfold P_Global2.cl, Rmax, Rmin; repeat destruct (Rle_dec _ _); lra). rewrite K in Q. exact Q.
Qed.
Lemma bwd_value : forall s k y x, In s l -> sdir s = Dbwd -> exact_to calcT V E true s x -> smin s <= x <= smax s ->
  times k y (smax s) -> times k (yp s (smax s) x y) x.
Proof using PT OS Sol.
  intros s k y x Hs D X Hx Hy. pose proof (OS s Hs) as O.
  destruct (Req_dec x (smax s)) as [->|N]; [rewrite (yp_max calcT vm E) by lra; exact Hy|].
  assert (sol_on V E (smin s) (smax s) (fun t => k * z t) (fun t => k * z' t)) as SK.
  { destruct (sol_sector l lo hi PT V E z z' Sol OS s Hs) as [C D']. split.
    - intros t Ht. destruct (C t Ht) as [C1 C2]. split; apply (continuous_scal_r (K := R_AbsRing) (V := R_NormedModule) k); assumption.
    - intros t Ht. destruct (D' t Ht) as [D1 D2]. split.
      + apply (is_derive_scal z t k _ D1).
      + replace ((V t - E) * (k * z t)) with (k * ((V t - E) * z t)) by ring. apply (is_derive_scal z' t k _ D2). }
  unfold sprop_y, sprop. cbv zeta.
  assert ((Rleb (smax s) (smax s) && Rleb (smax s) x) || (Rleb (smax s) (smin s) && Rleb x (smin s)) = false) as ->.
  { apply orb_false_iff. split; apply andb_false_iff; [right|left]; apply Rleb_false; lra. }
  cbn [negb]. rewrite D. cbn [dir_eqb].
  assert (Rltb (smax s) (smax s) = false) as -> by (apply Rltb_false; lra). assert (Rltb x (smax s) = true) as -> by (apply Rltb_true; lra).
  change (fst (propagateDelta calcT vm s E true (x - smax s) (y, 0))) with (ydelta calcT vm s E true (x - smax s) y).
  rewrite ydelta_bwd by (auto; lra).
  pose proof (exact_mul calcT V E (fun t => k * z t) (fun t => k * z' t) true s x y (or_intror D) X SK) as Q. rewrite D in Q. specialize (Q Hy).
  unfold rv in Q. rewrite D in Q. assert (P_Global2.cl s x = x) as K by (unfold P_Global2.cl, Rmax, Rmin; repeat destruct (Rle_dec _ _); lra). rewrite K in Q. exact Q.
Qed.

(** full steps are exact *)
Definition far_end (s : sec) : R := match sdir s with Dfwd => smax s | _ => smin s end.
Hypothesis X : forall s, In s l -> exact_to calcT V E true s (far_end s).
Variables left right : Y.
Variables kl kr : R.
Hypothesis HL : times kl left lo.
Hypothesis HR : times kr right hi.

Lemma dir_left : forall i s, (i <= M)%nat -> nth_error l i = Some s -> sdir s = Dfwd.
Proof using Hd. clear HM X. intros i s Hi Hs. pose proof (Hd i s Hs) as D. destruct (Z.leb_spec (Z.of_nat i) (Z.of_nat M)); [exact D|lia]. Qed.
Lemma dir_right : forall i s, (M < i)%nat -> nth_error l i = Some s -> sdir s = Dbwd.
Proof using Hd. clear HM X. intros i s Hi Hs. pose proof (Hd i s Hs) as D. destruct (Z.leb_spec (Z.of_nat i) (Z.of_nat M)); [lia|exact D]. Qed.

Lemma left_values : forall i s, (i <= M)%nat -> nth_error l i = Some s ->
  times kl (Lf calcT vm l E left i) (smin s) /\ times kl (Lf calcT vm l E left (S i)) (smax s).
Proof using PT OS HM Hd Sol X HL.
  assert (forall i s, (i <= M)%nat -> nth_error l i = Some s -> times kl (Lf calcT vm l E left i) (smin s) -> times kl (Lf calcT vm l E left (S i)) (smax s)) as ST.
  { intros i s Hi Hs Q. rewrite (Lf_S calcT vm l E left i s Hs). pose proof (nth_error_In _ _ Hs) as In_s. pose proof (OS s In_s).
    pose proof (X s In_s) as XS. pose proof (dir_left i s Hi Hs) as D. unfold far_end in XS. rewrite D in XS. apply fwd_value; auto; lra. }
  induction i as [|i IH]; intros s Hi Hs.
  - destruct (first_sec l lo hi PT) as (s0 & E0 & M0). rewrite Hs in E0. injection E0 as <-.
    assert (times kl (Lf calcT vm l E left 0) (smin s)) as Q by (rewrite M0; exact HL). split; [exact Q|apply ST; auto].
  - assert (S i < length l)%nat by (apply nth_error_Some; congruence).
    destruct (nth_error l i) as [t|] eqn:Et; [|apply nth_error_None in Et; lia].
    pose proof (chain_nth l lo hi i t s (proj2 PT) Et Hs) as K. destruct (IH t ltac:(lia) eq_refl) as [_ Q]. rewrite <- K in Q. split; [exact Q|apply ST; auto].
Qed.
Lemma right_values : forall j i s, (i + S j = length l)%nat -> (M < i)%nat -> nth_error l i = Some s ->
  times kr (Rf calcT vm l E right (S i)) (smax s) /\ times kr (Rf calcT vm l E right i) (smin s).
Proof using PT OS HM Hd Sol X HR.
  assert (forall i s, (M < i)%nat -> nth_error l i = Some s -> times kr (Rf calcT vm l E right (S i)) (smax s) -> times kr (Rf calcT vm l E right i) (smin s)) as ST.
  { intros i s Hi Hs Q. rewrite (Rf_S calcT vm l E right i s Hs). pose proof (nth_error_In _ _ Hs) as In_s. pose proof (OS s In_s).
    pose proof (X s In_s) as XS. pose proof (dir_right i s Hi Hs) as D. unfold far_end in XS. rewrite D in XS. apply bwd_value; auto; lra. }
  induction j as [|j IH]; intros i s Hj Hi Hs.
  - destruct (last_sec l lo hi PT) as (s0 & E0 & M0). replace (Z.to_nat (Z.of_nat (length l) - 1)) with i in E0 by lia. rewrite Hs in E0. injection E0 as <-.
    assert (times kr (Rf calcT vm l E right (S i)) (smax s)) as Q. { replace (S i) with (length l) by lia. rewrite Rf_end, M0. exact HR. } split; [exact Q|apply ST; auto].
  - destruct (nth_error l (S i)) as [t|] eqn:Et; [|apply nth_error_None in Et; lia].
    pose proof (chain_nth l lo hi i s t (proj2 PT) Hs Et) as K. destruct (IH (S i) t ltac:(lia) ltac:(lia) Et) as [_ Q]. rewrite K in Q. split; [exact Q|apply ST; auto].
Qed.

(** at the matching point *)
Variable sm : sec.
Hypothesis Hsm : nth_error l M = Some sm.
Notation yl := (yl calcT vm l E M left).
Notation yr := (yr calcT vm l E M right).
Lemma yl_value : times kl yl (smax sm).
Proof using PT OS HM Hd Sol X HL Hsm. apply (left_values M sm (le_n M) Hsm). Qed.
Lemma yr_value : times kr yr (smax sm).
Proof using PT OS HM Hd Sol X HR Hsm.
  unfold P_Eigen2.yr. destruct (nth_error l (S M)) as [t|] eqn:Et.
  - assert (S M < length l)%nat by (apply nth_error_Some; congruence).
    destruct (right_values (length l - S (S M)) (S M) t ltac:(lia) ltac:(lia) Et) as [_ Q]. rewrite (chain_nth l lo hi M sm t (proj2 PT) Hsm Et) in Q. exact Q.
  - apply nth_error_None in Et. destruct (last_sec l lo hi PT) as (s0 & E0 & M0). replace (Z.to_nat (Z.of_nat (length l) - 1)) with M in E0 by lia. rewrite Hsm in E0. injection E0 as <-.
    replace (S M) with (length l) by lia. rewrite Rf_end, M0. exact HR.
Qed.

Hypothesis Nz : nontrivial z z' lo hi.
Hypothesis Nkl : kl <> 0.
Hypothesis Nkr : kr <> 0.
Lemma c_range : lo <= smax sm <= hi.
Proof using PT OS Hsm. pose proof (chain_order l lo hi (proj2 PT) (OS' l OS)) as [Hlh Hin]. pose proof (nth_error_In _ _ Hsm) as I. pose proof (Hin sm I). pose proof (OS sm I). lra. Qed.
Lemma matched : y1 yl * y0 yr - y1 yr * y0 yl = 0 /\ nonzero yl /\ nonzero yr.
Proof using PT OS HM Hd Sol X HL HR Hsm Nz Nkl Nkr.
  destruct yl_value as [A0 A1]. destruct yr_value as [B0 B1]. rewrite A0, A1, B0, B1. split; [ring|].
  unfold nonzero. rewrite A0, A1, B0, B1. destruct (Nz _ c_range) as [N|N]; split; ((left; apply Rmult_integral_contrapositive_currified; assumption) || (right; apply Rmult_integral_contrapositive_currified; assumption)).
Qed.
Lemma ratio_value : ratio yl yr = kl / kr.
Proof using PT OS HM Hd Sol X HL HR Hsm Nz Nkl Nkr.
  destruct matched as (Z0 & NL & NR). destruct (ratio_match yl yr Z0 NL NR) as (R0 & R1 & _).
  destruct yl_value as [A0 A1]. destruct yr_value as [B0 B1]. rewrite A0, B0 in R0. rewrite A1, B1 in R1.
  destruct (Nz _ c_range) as [N|N].
  - apply (Rmult_eq_reg_r (kr * z (smax sm))); [|apply Rmult_integral_contrapositive_currified; assumption]. rewrite <- R0. field. exact Nkr.
  - apply (Rmult_eq_reg_r (kr * z' (smax sm))); [|apply Rmult_integral_contrapositive_currified; assumption]. rewrite <- R1. field. exact Nkr.
Qed.
Notation nrm := (norm_of yl yr (ratio yl yr)).
(** the computed eigenfunction is kl / norm times z *)
Lemma value_at_point : forall i s x, nth_error l i = Some s -> smin s <= x <= smax s -> exact_to calcT V E true s x ->
  eigenfunction_at calcT vm l (Z.of_nat M) E lo hi left right x = Ret (kl / nrm * z x, kl / nrm * z' x).
Proof using PT OS HM Hd Sol X HL HR Hsm Nz Nkl Nkr.
  intros i s x Hs Hx XS. destruct matched as (Z0 & NL & NR). rewrite (any_sector calcT vm l lo hi E PT OS M HM left right Hd Z0 NL NR i s x Hs Hx).
  pose proof (norm_pos calcT vm l E M left right) as NP. pose proof (nth_error_In _ _ Hs) as In_s.
  destruct (le_lt_dec i M) as [L|L].
  - rewrite (efin_l calcT vm l E M HM left right Hd i s x L Hs).
    destruct (fwd_value s kl (Lf calcT vm l E left i) x In_s (dir_left i s L Hs) XS Hx (proj1 (left_values i s L Hs))) as [A0 A1]. cbv beta in A0, A1.
    unfold val2, yscale; cbn [y0 y1]. rewrite A0, A1. unfold P_Eigen2.cl. f_equal. f_equal; field; lra.
  - rewrite (efin_r calcT vm l E M HM left right Hd i s x L Hs). assert (i < length l)%nat by (apply nth_error_Some; congruence).
    destruct (bwd_value s kr (Rf calcT vm l E right (S i)) x In_s (dir_right i s L Hs) XS Hx (proj1 (right_values (length l - S i) i s ltac:(lia) L Hs))) as [A0 A1]. cbv beta in A0, A1.
    unfold val2, yscale; cbn [y0 y1]. rewrite A0, A1. unfold P_Eigen2.cr. rewrite ratio_value at 1 3. f_equal. f_equal; field; split; auto; lra.
Qed.
End Exact.
