(** C76: the norm at an eigenvalue, and the constant-potential steps. *)
From Coq Require Import String ZArith Reals.
From Coquelicot Require Import Coquelicot.
From Coq Require Import List Bool Lia Lra.
From Verif Require Import Base M_Sectors S_Sectors P_Lookup M_Core S_Core S_Eigen S_Accuracy S_Zeros P_Prufer P_Core P_Core2 M_Eigen P_Eigen P_Eigen2 P_Eigen3 P_Global2 P_Global5 P_Lift P_Count P_Count2 P_EigenX P_EigenX2.
From Verif Require Import S_Legendre S_Formulas M_Formulas P_Formulas P_Terms P_Terms2 P_Formulas2 P_Formulas3 P_Formulas4 P_Accuracy P_Formulas5 P_Accuracy2 P_Accuracy3 P_Accuracy4 P_Formulas6 T_Formulas.
Import ListNotations.
Open Scope R_scope.

(** the steps towards the matching point are full steps *)
Lemma exact_to_same : forall calcT V E u s x x', from_base s x = from_base s x' -> reach s x = reach s x' -> exact_to calcT V E u s x -> exact_to calcT V E u s x'.
Proof. intros calcT V E u s x x' B Rc X. unfold exact_to in *. rewrite B, Rc in X. exact X. Qed.
Lemma full_exact : forall calcT V E lo hi l M sm, partition lo hi l -> (forall s, In s l -> smin s < smax s) -> nth_error l M = Some sm -> directions_ok l (Z.of_nat M) ->
  (forall s, In s l -> exact_to calcT V E true s (smax sm)) -> forall s, In s l -> exact_to calcT V E true s (far_end s).
Proof.
  intros calcT V E lo hi l M sm PT OS Hm Hd X s Hs. apply (exact_to_same _ _ _ _ s (smax sm)); [| |apply X, Hs].
  all: destruct (In_nth_error _ _ Hs) as [i Hi]; pose proof (OS s Hs) as O; pose proof (Hd i s Hi) as D; unfold from_base, far_end, reach; rewrite ?D;
    destruct (Z.leb_spec (Z.of_nat i) (Z.of_nat M)) as [L|L]; rewrite ?D;
    [destruct (below l lo hi PT OS M sm Hm i s Hi ltac:(lia)) as [Q _]|pose proof (above l lo hi PT OS M sm Hm i s Hi ltac:(lia)) as Q]; unfold Rmax, Rmin; repeat destruct (Rle_dec _ _); lra.
Qed.

Section AtEigenvalue.
Variable calcT : sec -> R -> R -> bool -> Tm.
Variable vm : R.
Variables (l : list sec) (lo hi E : R) (V : R -> R).
Hypothesis PT : partition lo hi l.
Hypothesis OS : forall s, In s l -> smin s < smax s.
Variable M : nat.
Hypothesis Hd : directions_ok l (Z.of_nat M).
Variable sm : sec.
Hypothesis Hsm : nth_error l M = Some sm.
Variables left right : Y.
Hypothesis L0 : e0 left = 0. Hypothesis L1 : e1 left = 0. Hypothesis R0 : e0 right = 0. Hypothesis R1 : e1 right = 0.
Hypothesis TD : forall s, In s l -> T_deriv (fun E => calcT s E (sh s) true) E.
Variables eps B : R.
Hypothesis He : 0 < eps.
Hypothesis HB0 : 0 <= B.
Hypothesis HB : forall s x, In s l -> smin s < x < smax s -> Rabs (V x) <= B.
Hypothesis Near : forall E', Rabs (E' - E) < eps ->
  (forall s, In s l -> exact_to calcT V E' true s (far_end s)) /\
  (exists z z', solution V E' lo hi l z z' /\ z lo = y0 left /\ z' lo = y1 left) /\ (exists z z', solution V E' lo hi l z z' /\ z hi = y0 right /\ z' hi = y1 right).
Variables z z' : R -> R.
Hypothesis Sol : solution V E lo hi l z z'.
Hypothesis Nz : nontrivial z z' lo hi.
Variables kl kr : R.
Hypothesis Nkl : kl <> 0.
Hypothesis Nkr : kr <> 0.
Hypothesis HL : times z z' kl left lo.
Hypothesis HR : times z z' kr right hi.
Notation yl := (yl calcT vm l E M left).
Notation yr := (yr calcT vm l E M right).

Lemma HMl : (M < length l)%nat. Proof using Hsm. clear - Hsm. apply nth_error_Some. congruence. Qed.
Lemma XE : forall s, In s l -> exact_to calcT V E true s (far_end s).
Proof using He Near. apply (proj1 (Near E ltac:(rewrite Rminus_eq_0, Rabs_R0; exact He))). Qed.
Lemma scaled : forall k, solution V E lo hi l (fun x => k * z x) (fun x => k * z' x).
Proof using Sol.
  intro k. destruct Sol as [C D]. split.
  - intros x Hx. destruct (C x Hx). split; apply (continuous_scal_r (K := R_AbsRing) (V := R_NormedModule) k); assumption.
  - intros s x Hs Hx. destruct (D s x Hs Hx) as [D1 D2]. split; [apply (is_derive_scal z x k _ D1)|].
    replace ((V x - E) * (k * z x)) with (k * ((V x - E) * z x)) by ring. apply (is_derive_scal z' x k _ D2).
Qed.
Lemma ends : lo <= hi /\ lo <= smax sm <= hi.
Proof using PT OS Hsm. split; [apply (chain_order l lo hi (proj2 PT) (OS' l OS))|]. apply (c_range l lo hi PT OS M sm Hsm). Qed.
Lemma left_part : is_RInt (fun x => (kl * z x) * (kl * z x)) lo (smax sm) (Wr yl).
Proof using PT OS Hd Hsm L0 L1 TD He HB0 HB Near Sol HL.
  pose proof HMl as HM. destruct ends as [E1 E2].
  apply (lagrange V l lo hi B (proj2 PT) (OS' l OS) HB0 HB E _ _ (scaled kl) lo (smax sm) (fun E => Lf calcT vm l E left (S M)) eps); try lra; auto.
  - apply (Lf_deriv calcT vm l E OS TD M Hd left L0 L1); lia.
  - apply (yl_value calcT vm l lo hi E V PT OS M HM Hd z z' Sol XE left kl HL sm Hsm).
  - intros E' HE'. destruct (Near E' HE') as (X & (w & w' & Sw & W0 & W1) & _). exists w, w'. split; [exact Sw|].
    destruct HL as [HL0 HL1]. split; [lra|]. split; [lra|].
    destruct (yl_value calcT vm l lo hi E' V PT OS M HM Hd w w' Sw X left 1 ltac:(split; lra) sm Hsm) as [A0 A1]. unfold P_Eigen2.yl in A0, A1. split; lra.
Qed.
Lemma right_part : is_RInt (fun x => (kr * z x) * (kr * z x)) hi (smax sm) (Wr yr).
Proof using PT OS Hd Hsm R0 R1 TD He HB0 HB Near Sol HR.
  pose proof HMl as HM. destruct ends as [E1 E2].
  apply (lagrange V l lo hi B (proj2 PT) (OS' l OS) HB0 HB E _ _ (scaled kr) hi (smax sm) (fun E => Rf calcT vm l E right (S M)) eps); try lra; auto.
  - apply (Rf_deriv calcT vm l E OS TD M Hd right R0 R1 (length l - S M)); lia.
  - apply (yr_value calcT vm l lo hi E V PT OS M HM Hd z z' Sol XE right kr HR sm Hsm).
  - intros E' HE'. destruct (Near E' HE') as (X & _ & (w & w' & Sw & W0 & W1)). exists w, w'. split; [exact Sw|].
    destruct HR as [HR0 HR1]. split; [lra|]. split; [lra|].
    destruct (yr_value calcT vm l lo hi E' V PT OS M HM Hd w w' Sw X right 1 ltac:(split; lra) sm Hsm) as [A0 A1]. unfold P_Eigen2.yr in A0, A1. split; lra.
Qed.
Lemma square_pos : forall I, is_RInt (fun x => z x * z x) lo hi I -> 0 < I.
Proof using PT OS Sol Nz.
  intros I HI. destruct (square_primitive V l lo hi (proj2 PT) (OS' l OS) E z z' Sol) as (G & CG & DG & IG).
  destruct (chain_order l lo hi (proj2 PT) (OS' l OS)) as [Hlh CO]. pose proof (IG lo hi ltac:(lra) ltac:(lra)) as Q.
  assert (I = G hi - G lo) as -> by (rewrite <- (is_RInt_unique _ _ _ _ HI), <- (is_RInt_unique _ _ _ _ Q); reflexivity). clear Q HI IG.
  assert (forall a b, lo <= a -> a <= b -> b <= hi -> G a <= G b) as Mo.
  { intros a b H1 H2 H3. enough (- G b <= - G a) by lra.
    apply (chain_decreasing (fun x => - G x) (fun x => - (z x * z x)) l lo hi (proj2 PT) (OS' l OS)); try lra; [intros x _; apply (continuous_opp G), CG|].
    intros s x Hs Hx. split; [apply is_derive_oppR, (DG s x Hs Hx)|]. pose proof (Rle_0_sqr (z x)). unfold Rsqr in *. lra. }
  destruct (first_sec l lo hi PT) as (s & Es & Ms). pose proof (nth_error_In _ _ Es) as Is. pose proof (OS s Is) as O. destruct (CO s Is) as [C1 C2].
  pose proof (Mo lo (smin s) ltac:(lra) ltac:(lra) ltac:(lra)) as M1. pose proof (Mo (smax s) hi ltac:(lra) ltac:(lra) ltac:(lra)) as M3.
  destruct (Rle_lt_or_eq_dec (G (smin s)) (G (smax s)) (Mo (smin s) (smax s) ltac:(lra) ltac:(lra) ltac:(lra))) as [|K]; [lra|]. exfalso.
  assert (forall x, smin s <= x <= smax s -> G x = G (smin s)) as Cst.
  { intros x Hx. apply Rle_antisym; [rewrite K|]; apply Mo; lra. }
  assert (forall x, smin s < x < smax s -> z x = 0) as Z0.
  { intros x Hx. pose proof (DG s x Is Hx) as D.
    assert (is_derive G x 0) as D2.
    { apply (is_derive_ext_loc (fun _ => G (smin s))); [|apply @is_derive_const].
      assert (0 < Rmin (x - smin s) (smax s - x)) as P by (apply Rmin_pos; lra). exists (mkposreal _ P). intros t Ht. symmetry. apply Cst.
      unfold ball in Ht; cbn in Ht. unfold AbsRing_ball, abs, minus, plus, opp in Ht; cbn in Ht.
      pose proof (Rmin_l (x - smin s) (smax s - x)). pose proof (Rmin_r (x - smin s) (smax s - x)). apply Rabs_def2 in Ht. lra. }
    pose proof (is_derive_unique _ _ _ D) as D1. rewrite (is_derive_unique _ _ _ D2) in D1. symmetry in D1. apply Rmult_integral in D1. tauto. }
  set (x := (smin s + smax s) / 2). assert (smin s < x < smax s) as Hx by (unfold x; lra).
  destruct (proj2 Sol s x Is Hx) as [D1 _].
  assert (is_derive z x 0) as D2.
  { apply (is_derive_ext_loc (fun _ => 0)); [|apply @is_derive_const].
    assert (0 < Rmin (x - smin s) (smax s - x)) as P by (apply Rmin_pos; lra). exists (mkposreal _ P). intros t Ht. symmetry. apply Z0.
    unfold ball in Ht; cbn in Ht. unfold AbsRing_ball, abs, minus, plus, opp in Ht; cbn in Ht.
    pose proof (Rmin_l (x - smin s) (smax s - x)). pose proof (Rmin_r (x - smin s) (smax s - x)). apply Rabs_def2 in Ht. lra. }
  pose proof (is_derive_unique _ _ _ D1) as Q1. rewrite (is_derive_unique _ _ _ D2) in Q1.
  destruct (Nz x ltac:(lra)) as [N|N]; [apply N, Z0, Hx|apply N; symmetry; exact Q1].
Qed.
Notation nrm := (norm_of yl yr (ratio yl yr)).
Lemma norm_value : exists I, 0 < I /\ is_RInt (fun x => z x * z x) lo hi I /\ nrm * nrm = kl * kl * I /\ is_RInt (fun x => (kl / nrm * z x) * (kl / nrm * z x)) lo hi 1.
Proof using PT OS Hd Hsm L0 L1 R0 R1 TD He HB0 HB Near Sol Nz Nkl Nkr HL HR.
  pose proof HMl as HM.
  pose proof (ratio_value calcT vm l lo hi E V PT OS M HM Hd z z' Sol XE left right kl kr HL HR sm Hsm Nz Nkl Nkr) as RV.
  pose proof left_part as P1. pose proof right_part as P2. apply is_RInt_swap in P2.
  assert (forall k a b v, k <> 0 -> is_RInt (fun x => (k * z x) * (k * z x)) a b v -> is_RInt (fun x => z x * z x) a b (v / (k * k))) as SC.
  { intros k a b v Hk H. apply (is_RInt_scal _ _ _ (/ (k * k))) in H. replace (v / (k * k)) with (scal (/ (k * k)) v) by (unfold scal; cbn; unfold mult; cbn; field; exact Hk).
    eapply is_RInt_ext; [|exact H]. intros x _. unfold scal; cbn; unfold mult; cbn. field. exact Hk. }
  apply (SC kl _ _ _ Nkl) in P1. apply (SC kr _ _ _ Nkr) in P2. set (I := Wr yl / (kl * kl) + - Wr yr / (kr * kr)). assert (is_RInt (fun x => z x * z x) lo hi I) as P by exact (is_RInt_Chasles _ _ _ _ _ _ P1 P2).
  clear P1 P2. pose proof (square_pos I P) as HI. exists I. split; [exact HI|]. split; [exact P|].
  assert (norm2 yl yr (ratio yl yr) = kl * kl * I) as N2.
  { rewrite RV. unfold norm2. change (e0 yl * y1 yl - e1 yl * y0 yl) with (Wr yl). change (e0 yr * y1 yr - e1 yr * y0 yr) with (Wr yr).
    unfold I. set (a := Wr yl). set (b := Wr yr). clearbody a b. field. split; assumption. }
  assert (0 < kl * kl * I) as Pos by (apply Rmult_lt_0_compat; [|exact HI]; destruct (Rdichotomy kl 0 Nkl); nra).
  assert (nrm * nrm = kl * kl * I) as NN. { unfold norm_of. rewrite N2. rewrite (proj2 (Rltb_true _ _) Pos). apply sqrt_sqrt. lra. }
  split; [exact NN|]. pose proof (norm_pos calcT vm l E M left right) as NP. set (n := nrm) in *. clearbody n.
  clearbody I. apply (is_RInt_scal _ _ _ (kl * kl / (n * n))) in P.
  replace 1 with (scal (kl * kl / (n * n)) I).
  - eapply is_RInt_ext; [|exact P]. intros x _. unfold scal; cbn; unfold mult; cbn. field. lra.
  - unfold scal; cbn; unfold mult; cbn. rewrite NN. field. split; [lra|exact Nkl].
Qed.
End AtEigenvalue.

(** constant potential: the derivative part of the full step is exact too *)
Lemma full_constant_dE : forall q, (q < 4)%nat -> forall v h E, (forall k, (1 <= k <= 15)%nat -> v k = 0) ->
  is_derive (fun E => tent q (step_full eta_exact v h E)) E (dent q (step_full eta_exact v h E)).
Proof.
  intros q Hq v h E Hv. pose proof (full_dE q Hq v h E) as H.
  assert (tcoeff_h v h q 9 = 0) as E9.
  { apply (Rmult_eq_reg_l (IZR DD)); [|apply DD_nz]. rewrite <- (hcol_val v h q 9 h) by lia.
    pose proof const_check as Hc. rewrite forallb_forall in Hc. specialize (Hc q ltac:(apply in_seq; lia)).
    rewrite forallb_forall in Hc. specialize (Hc 9%nat ltac:(apply in_seq; lia)). apply andb_prop in Hc. destruct Hc as [_ H2].
    apply (is_zero_val v h h) in H2. cbn [leval fold_right] in H2. rewrite teval_tsc in H2. fold (leval v h h (filter no_v (hcol q 9))) in H2.
    rewrite <- leval_const in H2; try exact Hv.
    - assert (teval v h h (tcollapse (const_term q 9)) = 0) as E0. { unfold const_term. cbn [Nat.eqb]. rewrite !andb_false_r. cbn [tcollapse teval]. ring. }
      rewrite E0 in H2. lra.
    - pose proof hcol_good as Hg. rewrite forallb_forall in Hg. specialize (Hg q ltac:(apply in_seq; lia)). rewrite forallb_forall in Hg. apply Hg, in_seq. lia. }
  rewrite E9, Rmult_0_l, Rminus_0_r in H. exact H.
Qed.
Lemma constant_T_deriv : forall (s : sec) E, / 10 ^ 12 < sh s -> (forall k, (1 <= k <= 15)%nat -> nth k (spay s) 0 = 0) ->
  T_deriv (fun E => calculateT eta_exact s E (sh s) true) E.
Proof.
  intros s E Hh Hv.
  assert (forall E, calculateT eta_exact s E (sh s) true = step_full eta_exact (fun k => nth k (spay s) 0) (sh s) E) as Q.
  { intro E'. assert (0 < / 10 ^ 12) by (apply Rinv_0_lt_compat, pow_lt; lra). apply calculateT_full; [unfold EPS12; rewrite Rabs_right; [exact Hh|left; apply Rlt_trans with (2 := Hh); assumption]|]. rewrite Rminus_eq_0, Rabs_R0. left. assumption. }
  unfold T_deriv. rewrite Q.
  pose proof (full_constant_dE 0 ltac:(lia) (fun k => nth k (spay s) 0) (sh s) E Hv) as D0. pose proof (full_constant_dE 1 ltac:(lia) (fun k => nth k (spay s) 0) (sh s) E Hv) as D1.
  pose proof (full_constant_dE 2 ltac:(lia) (fun k => nth k (spay s) 0) (sh s) E Hv) as D2. pose proof (full_constant_dE 3 ltac:(lia) (fun k => nth k (spay s) 0) (sh s) E Hv) as D3.
  cbn [tent dent] in D0, D1, D2, D3.
  split; [|split; [|split]]; (eapply is_derive_ext; [|eassumption]); intro t; cbv beta; rewrite Q; reflexivity.
Qed.
