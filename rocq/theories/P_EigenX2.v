(** The norm of the computed eigenfunction: the energy derivatives carried along are those of the exact solutions, and by the
    Lagrange identity the combination taken at the matching point is the integral of the square (proofs for C76). *)
From Coq Require Import String ZArith Reals.
From Coquelicot Require Import Coquelicot.
From Coq Require Import List Bool Lia Lra.
From Verif Require Import Base M_Sectors S_Sectors P_Lookup M_Core S_Core S_Eigen S_Accuracy S_Zeros P_Prufer P_Core P_Core2 M_Eigen P_Eigen P_Eigen2 P_Eigen3 P_Global2 P_Global5 P_Lift P_Count P_Count2 P_EigenX.
Import ListNotations.
Open Scope R_scope.

Lemma quadratic_derive : forall (g : R -> R) E A K eps, 0 < eps -> 0 <= K ->
  (forall E', Rabs (E' - E) < eps -> Rabs (g E' - g E - A * (E' - E)) <= K * (Rabs (E' - E) * Rabs (E' - E))) -> is_derive g E A.
Proof.
  intros g E A K eps He HK B. apply is_derive_Reals. intros e Hepos.
  assert (0 < Rmin eps (e / (K + 1))) as Hm by (apply Rmin_pos; [exact He|apply Rdiv_lt_0_compat; lra]).
  exists (mkposreal _ Hm). intros h Hh Hl. cbn in Hl. pose proof (Rmin_l eps (e / (K + 1))). pose proof (Rmin_r eps (e / (K + 1))).
  specialize (B (E + h)). replace (E + h - E) with h in B by ring. specialize (B ltac:(lra)).
  pose proof (Rabs_pos_lt h Hh) as Ph. replace ((g (E + h) - g E) / h - A) with ((g (E + h) - g E - A * h) / h) by (field; exact Hh).
  unfold Rdiv. rewrite Rabs_mult, Rabs_inv.
  apply Rle_lt_trans with (K * (Rabs h * Rabs h) * / Rabs h); [apply Rmult_le_compat_r; [left; apply Rinv_0_lt_compat, Ph|exact B]|].
  replace (K * (Rabs h * Rabs h) * / Rabs h) with (K * Rabs h) by (field; lra).
  assert (Rabs h < e / (K + 1)) as Q by lra. apply (Rmult_lt_compat_l (K + 1)) in Q; [|lra]. replace ((K + 1) * (e / (K + 1))) with e in Q by (field; lra). lra.
Qed.

Section Lagrange.
Variables (V : R -> R) (l : list sec) (lo hi M : R).
Hypothesis Ch : chain lo hi l.
Hypothesis Hle : forall s, In s l -> smin s <= smax s.
Hypothesis HM : 0 <= M.
Hypothesis Bd : forall s x, In s l -> smin s < x < smax s -> Rabs (V x) <= M.
Variables (E : R) (y y' : R -> R).
Hypothesis Sy : solution V E lo hi l y y'.

Lemma square_primitive : exists G : R -> R, (forall x, continuous G x) /\ (forall s x, In s l -> smin s < x < smax s -> is_derive G x (y x * y x)) /\
  (forall a b, lo <= a <= hi -> lo <= b <= hi -> is_RInt (fun x => y x * y x) a b (G b - G a)).
Proof using Ch Hle Sy.
  destruct (chain_order l lo hi Ch Hle) as [Hlh CO]. destruct Sy as [C _].
  set (f := fun x => y (clamp lo hi x) * y (clamp lo hi x)).
  assert (forall x, continuous f x) as Cf.
  { intro x. assert (continuous (fun x => y (clamp lo hi x)) x) as Q by (apply clamp_comp_continuous; [exact Hlh|intros t Ht; apply C, Ht]). apply (continuous_mult (fun x => y (clamp lo hi x)) (fun x => y (clamp lo hi x)) x Q Q). }
  assert (forall a b, ex_RInt f a b) as XR by (intros a b; apply (ex_RInt_continuous f); intros; apply Cf).
  assert (forall x, is_derive (fun x => RInt f lo x) x (f x)) as D.
  { intro x. apply (is_derive_RInt f (fun x => RInt f lo x) lo x); [exists (mkposreal 1 Rlt_0_1); intros t _; apply (RInt_correct f), XR|apply Cf]. }
  exists (fun x => RInt f lo x). split; [|split].
  - intro x. apply (ex_derive_continuous (fun x => RInt f lo x)). eexists. apply D.
  - intros s x Hs Hx. destruct (CO s Hs). pose proof (D x) as Dx. unfold f in Dx at 2. rewrite clamp_id in Dx by lra. exact Dx.
  - intros a b Ha Hb. apply (is_RInt_ext f).
    + intros x Hx. unfold f. rewrite clamp_id; [reflexivity|]. unfold Rmin, Rmax in Hx. destruct (Rle_dec a b); lra.
    + replace (RInt f lo b - RInt f lo a) with (RInt f a b). { apply (RInt_correct f), XR. }
      pose proof (RInt_Chasles f lo a b (XR lo a) (XR a b)) as Q. change (plus (RInt f lo a) (RInt f a b)) with (RInt f lo a + RInt f a b) in Q. lra.
Qed.

(** a function with small derivative inside the sectors hardly changes *)
Lemma small_change : forall (f f' : R -> R) k, 0 <= k -> (forall x, lo <= x <= hi -> continuous f x) ->
  (forall s x, In s l -> smin s < x < smax s -> is_derive f x (f' x) /\ Rabs (f' x) <= k) ->
  forall a b, lo <= a <= hi -> lo <= b <= hi -> Rabs (f b - f a) <= k * (hi - lo).
Proof using Ch Hle.
  intros f f' k Hk Cf Df.
  assert (forall a b, lo <= a -> a <= b -> b <= hi -> Rabs (f b - f a) <= k * (b - a)) as W.
  { intros a b Ha Hab Hb.
    assert (f b - k * b <= f a - k * a) as P1.
    { apply (chain_decreasing (fun x => f x - k * x) (fun x => f' x - k) l lo hi Ch Hle); try lra.
      - intros x Hx. apply (continuous_minus f (fun x => k * x)); [apply Cf, Hx|]. apply (continuous_mult (fun _ => k) (fun x => x)); [apply continuous_const|apply continuous_id].
      - intros s x Hs Hx. destruct (Df s x Hs Hx) as [D B]. split; [|pose proof (Rle_abs (f' x)); lra].
        apply (is_derive_minusR f (fun x => k * x)); [exact D|]. auto_derive; [exact I|ring]. }
    assert (- f b - k * b <= - f a - k * a) as P2.
    { apply (chain_decreasing (fun x => - f x - k * x) (fun x => - f' x - k) l lo hi Ch Hle); try lra.
      - intros x Hx. apply (continuous_minus (fun x => - f x) (fun x => k * x)); [apply (continuous_opp f), Cf, Hx|]. apply (continuous_mult (fun _ => k) (fun x => x)); [apply continuous_const|apply continuous_id].
      - intros s x Hs Hx. destruct (Df s x Hs Hx) as [D B]. split; [|pose proof (Rle_abs (- f' x)) as Q; rewrite Rabs_Ropp in Q; lra].
        apply (is_derive_minusR (fun x => - f x) (fun x => k * x)); [apply is_derive_oppR, D|]. auto_derive; [exact I|ring]. }
    apply Rabs_le. lra. }
  intros a b Ha Hb. destruct (Rle_lt_dec a b) as [L|L].
  - eapply Rle_trans; [apply W; lra|]. apply Rmult_le_compat_l; lra.
  - rewrite <- Rabs_Ropp, Ropp_minus_distr. eapply Rle_trans; [apply W; lra|]. apply Rmult_le_compat_l; lra.
Qed.
Lemma solution_bounded : exists S, 0 <= S /\ forall x, lo <= x <= hi -> Rabs (y x) <= S.
Proof using Ch Hle Sy.
  destruct (chain_order l lo hi Ch Hle) as [Hlh CO]. destruct Sy as [C _].
  assert (forall x, lo <= x <= hi -> continuity_pt (fun x => Rabs (y x)) x) as CA.
  { intros x Hx. apply (continuity_pt_comp y Rabs); [apply continuity_pt_filterlim, C, Hx|apply Rcontinuity_abs]. }
  destruct (continuity_ab_maj (fun x => Rabs (y x)) lo hi Hlh CA) as (mx & Hmx & _).
  exists (Rabs (y mx)). split; [apply Rabs_pos|]. intros x Hx. apply (Hmx x Hx).
Qed.

(** a family of data at c, differentiable at E, that consists of the values at c of solutions with the data of y at a: the
    combination of value, slope and energy derivatives is the integral of y^2 from a to c *)
Variables (a c : R) (U : R -> Y) (eps : R).
Hypothesis Ha : lo <= a <= hi.
Hypothesis Hc : lo <= c <= hi.
Hypothesis He : 0 < eps.
Hypothesis UD : Y_deriv U E.
Hypothesis U0 : y0 (U E) = y c /\ y1 (U E) = y' c.
Hypothesis UE : forall E', Rabs (E' - E) < eps -> exists w w', solution V E' lo hi l w w' /\ w a = y a /\ w' a = y' a /\ y0 (U E') = w c /\ y1 (U E') = w' c.
Lemma lagrange : is_RInt (fun x => y x * y x) a c (Wr (U E)).
Proof using Ch Hle HM Bd Sy Ha Hc He UD U0 UE.
  destruct square_primitive as (G & CG & DG & IG). pose proof (IG a c Ha Hc) as Q. clear IG.
  replace (Wr (U E)) with (G c - G a); [exact Q|]. clear Q.
  destruct (solution_lip V l lo hi M Ch Hle Bd HM E y y' a Ha Sy) as (C & HC & LIP). destruct solution_bounded as (S & HS & SB).
  destruct (chain_order l lo hi Ch Hle) as [Hlh CO].
  set (g := fun E' => y c * y1 (U E') - y' c * y0 (U E')).
  assert (is_derive g E (- Wr (U E))) as D1.
  { destruct UD as [D0 D1]. unfold g. evar_last; [apply is_derive_minusR; [apply (is_derive_scal (fun E => y1 (U E)) E (y c) _ D1)|apply (is_derive_scal (fun E => y0 (U E)) E (y' c) _ D0)]|].
    destruct U0 as [Q0 Q1]. unfold Wr. rewrite Q0, Q1. ring. }
  assert (is_derive g E (- (G c - G a))) as D2.
  { apply (quadratic_derive g E _ (S * C * (hi - lo)) (Rmin eps 1)); [apply Rmin_pos; lra|apply Rmult_le_pos; [apply Rmult_le_pos; lra|lra]|].
    intros E' HE'. pose proof (Rmin_l eps 1). pose proof (Rmin_r eps 1). destruct (UE E' ltac:(lra)) as (w & w' & Sw & A0 & A1 & B0 & B1).
    set (d := Rabs (E' - E)) in *. assert (0 <= d) as Hd by apply Rabs_pos.
    specialize (LIP E' w w' ltac:(fold d; lra) Sw A0 A1). fold d in LIP.
    unfold g. rewrite B0, B1. destruct U0 as [-> ->]. destruct Sy as [Cy Dy]. destruct Sw as [Cw Dw].
    pose proof (small_change (fun x => y x * w' x - y' x * w x + (E' - E) * G x) (fun x => (E' - E) * (y x * (y x - w x))) (S * (C * d) * d)) as SC.
    assert (0 <= S * (C * d) * d) as K0 by (repeat apply Rmult_le_pos; assumption). specialize (SC K0).
    assert (forall x, lo <= x <= hi -> continuous (fun x => y x * w' x - y' x * w x + (E' - E) * G x) x) as K1.
    { intros x Hx. destruct (Cy x Hx) as [P1 P2]. destruct (Cw x Hx) as [P3 P4].
      apply (continuous_plus (fun x => y x * w' x - y' x * w x) (fun x => (E' - E) * G x)).
      - apply (continuous_minus (fun x => y x * w' x) (fun x => y' x * w x)); [apply (continuous_mult y w' x P1 P4)|apply (continuous_mult y' w x P2 P3)].
      - apply (continuous_mult (fun _ => E' - E) G); [apply continuous_const|apply CG]. }
    specialize (SC K1).
    assert (forall s x, In s l -> smin s < x < smax s -> is_derive (fun x => y x * w' x - y' x * w x + (E' - E) * G x) x ((E' - E) * (y x * (y x - w x))) /\
      Rabs ((E' - E) * (y x * (y x - w x))) <= S * (C * d) * d) as K2.
    { intros s x Hs Hx. destruct (Dy s x Hs Hx) as [P1 P2]. destruct (Dw s x Hs Hx) as [P3 P4]. pose proof (DG s x Hs Hx) as P5. split.
      - evar_last; [apply is_derive_plusR; [apply is_derive_minusR; apply is_derive_multR; eassumption|apply (is_derive_scal G x (E' - E) _ P5)]|]. 
        ring.
      - destruct (CO s Hs). rewrite !Rabs_mult. fold d. rewrite Rmult_comm. apply Rmult_le_compat_r; [exact Hd|]. apply Rmult_le_compat; try apply Rabs_pos; [apply SB; lra|].
        rewrite <- Rabs_Ropp, Ropp_minus_distr. apply LIP. lra. }
    specialize (SC K2 a c Ha Hc). cbv beta in SC. rewrite A0, A1 in SC.
    replace (y c * w' c - y' c * w c - (y c * y' c - y' c * y c) - - (G c - G a) * (E' - E)) with
      (y c * w' c - y' c * w c + (E' - E) * G c - (y a * y' a - y' a * y a + (E' - E) * G a)) by ring.
    eapply Rle_trans; [exact SC|]. apply Req_le. ring. }
  pose proof (is_derive_unique _ _ _ D1) as Q1. rewrite (is_derive_unique _ _ _ D2) in Q1. lra.
Qed.
End Lagrange.

Section Full.
Variable calcT : sec -> R -> R -> bool -> Tm.
Variable vm : R.
Variables (l : list sec) (lo hi E : R).
Notation yp := (fun E s a b y => sprop_y calcT vm s E y a b true).
(** full steps multiply by the matrix of the whole sector *)
Lemma full_fwd : forall s y E', smin s < smax s -> sdir s = Dfwd -> yp E' s (smin s) (smax s) y = tmul (calcT s E' (sh s) true) y.
Proof.
  intros s y E' O D. unfold sprop_y, sprop. cbv zeta.
  assert ((Rleb (smax s) (smin s) && Rleb (smax s) (smax s)) || (Rleb (smin s) (smin s) && Rleb (smax s) (smin s)) = false) as ->.
  { apply orb_false_iff. split; apply andb_false_iff; [left|right]; apply Rleb_false; lra. }
  cbn [negb]. rewrite D. cbn [dir_eqb].
  assert (Rltb (smin s) (smin s) = false) as -> by (apply Rltb_false; lra). assert (Rltb (smin s) (smax s) = true) as -> by (apply Rltb_true; lra).
  change (fst (propagateDelta calcT vm s E' true (smax s - smin s) (y, 0))) with (ydelta calcT vm s E' true (smax s - smin s) y).
  rewrite ydelta_fwd by (auto; lra). do 2 f_equal. unfold dl, P_Global2.cl. rewrite D. unfold sh, Rmax, Rmin. repeat destruct (Rle_dec _ _); lra.
Qed.
Lemma full_bwd : forall s y E', smin s < smax s -> sdir s = Dbwd -> yp E' s (smax s) (smin s) y = reverse (tmul (calcT s E' (sh s) true) (reverse y)).
Proof.
  intros s y E' O D. unfold sprop_y, sprop. cbv zeta.
  assert ((Rleb (smax s) (smax s) && Rleb (smax s) (smin s)) || (Rleb (smax s) (smin s) && Rleb (smin s) (smin s)) = false) as ->.
  { apply orb_false_iff. split; apply andb_false_iff; [right|left]; apply Rleb_false; lra. }
  cbn [negb]. rewrite D. cbn [dir_eqb].
  assert (Rltb (smax s) (smax s) = false) as -> by (apply Rltb_false; lra). assert (Rltb (smin s) (smax s) = true) as -> by (apply Rltb_true; lra).
  change (fst (propagateDelta calcT vm s E' true (smin s - smax s) (y, 0))) with (ydelta calcT vm s E' true (smin s - smax s) y).
  rewrite ydelta_bwd by (auto; lra). do 3 f_equal. unfold dl, P_Global2.cl. rewrite D. unfold sh, Rmax, Rmin. repeat destruct (Rle_dec _ _); lra.
Qed.
Hypothesis OS : forall s, In s l -> smin s < smax s.
Hypothesis TD : forall s, In s l -> T_deriv (fun E => calcT s E (sh s) true) E.
Variable M : nat.
Hypothesis Hd : directions_ok l (Z.of_nat M).
Variables left right : Y.
Hypothesis L0 : e0 left = 0. Hypothesis L1 : e1 left = 0. Hypothesis R0 : e0 right = 0. Hypothesis R1 : e1 right = 0.
Lemma ext_deriv : forall f g : R -> Y, (forall x, f x = g x) -> Y_deriv f E -> Y_deriv g E.
Proof using. clear. intros f g Q [A B]. rewrite (Q E) in A, B. split; (eapply is_derive_ext; [|eassumption]); intros t; cbn; rewrite Q; reflexivity. Qed.
Lemma Lf_deriv : forall i, (i <= S M)%nat -> (i <= length l)%nat -> Y_deriv (fun E => Lf calcT vm l E left i) E.
Proof using OS TD Hd L0 L1.
  induction i as [|i IH]; intros Hi Hl.
  - unfold Lf; cbn [firstn fold_left]. split; rewrite ?L0, ?L1; apply @is_derive_const.
  - destruct (nth_error l i) as [s|] eqn:Es; [|apply nth_error_None in Es; lia]. pose proof (nth_error_In _ _ Es) as Is.
    apply (ext_deriv (fun E' => tmul (calcT s E' (sh s) true) (Lf calcT vm l E' left i))).
    + intro x. rewrite (Lf_S calcT vm l x left i s Es). symmetry. apply full_fwd; [apply OS, Is|].
      pose proof (Hd i s Es) as D. destruct (Z.leb_spec (Z.of_nat i) (Z.of_nat M)); [exact D|lia].
    + apply deriv_tmul; [apply TD, Is|apply IH; lia].
Qed.
Lemma Rf_deriv : forall j i, (i + j = length l)%nat -> (M < i)%nat -> Y_deriv (fun E => Rf calcT vm l E right i) E.
Proof using OS TD Hd R0 R1.
  induction j as [|j IH]; intros i Hj Hi.
  - replace i with (length l) by lia. apply (ext_deriv (fun _ => right)); [intro x; symmetry; apply Rf_end|]. split; rewrite ?R0, ?R1; apply @is_derive_const.
  - destruct (nth_error l i) as [s|] eqn:Es; [|apply nth_error_None in Es; lia]. pose proof (nth_error_In _ _ Es) as Is.
    apply (ext_deriv (fun E' => reverse (tmul (calcT s E' (sh s) true) (reverse (Rf calcT vm l E' right (S i)))))).
    + intro x. rewrite (Rf_S calcT vm l x right i s Es). symmetry. apply full_bwd; [apply OS, Is|].
      pose proof (Hd i s Es) as D. destruct (Z.leb_spec (Z.of_nat i) (Z.of_nat M)); [lia|exact D].
    + apply deriv_reverse, deriv_tmul; [apply TD, Is|]. apply deriv_reverse. apply IH; lia.
Qed.
End Full.
