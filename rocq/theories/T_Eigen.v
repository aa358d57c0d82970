(** C32 - C36: eigenfunctions. *)
From Coq Require Import Floats String ZArith Reals List Bool Lia Lra.
From Coquelicot Require Import Coquelicot.
From Verif Require Import Base M_Sectors S_Sectors P_Lookup M_Core S_Core S_Eigen P_Prufer P_Core P_Core2 M_Eigen P_Eigen P_Eigen2 P_Eigen3 P_Eigen4.
Import ListNotations.
Open Scope R_scope.

(** ** A concrete problem: -y'' = E y on [0, pi] at E = 1 with Dirichlet ends, two sectors of opposite
    directions, the exact step matrices.  The eigenfunction is sqrt(2/pi) sin x. *)
Definition ef_l : list sec := [mkSector 0 1 Dfwd [0]; mkSector 1 PI Dbwd [0]].
Definition ef_T (s : sec) (E d : R) (u : bool) : Tm :=
  mkT (cos d) (sin d) (- sin d) (cos d)
      (- (d * sin d) / 2) ((d * cos d - sin d) / 2) (- (sin d + d * cos d) / 2) (- (d * sin d) / 2).
Lemma PI_1 : 1 < PI. Proof. pose proof PI2_1. lra. Qed.
Example ef_partition : partition 0 PI ef_l.
Proof. split; [discriminate|]. cbn. auto. Qed.
Example ef_strict : forall s, In s ef_l -> smin s < smax s.
Proof. pose proof PI_1. intros s [<-|[<-|[]]]; cbn; lra. Qed.
Example ef_dirs : directions_ok ef_l 0.
Proof. intros [|[|k]] s Hs; cbn in Hs; [injection Hs as <-; reflexivity|injection Hs as <-; reflexivity|destruct k; discriminate]. Qed.
Example ef_det s E d u : det (ef_T s E d u) = 1 /\ ddet (ef_T s E d u) = 0.
Proof.
  unfold det, ddet, ef_T; cbn. pose proof (sin2_cos2 d) as SC. unfold Rsqr in SC. split; [lra|]. nra.
Qed.
Example ef_exact : forall s, In s ef_l -> exact_propagator (fun y a b => sprop_y ef_T 0 s 1 y a b true) (fun _ => 0) 1 (smin s) (smax s).
Proof.
  intros s Hs. apply exact_of_T with (t := fun d => ef_T s 1 d true).
  - apply ef_strict; auto.
  - destruct Hs as [<-|[<-|[]]]; [left|right]; reflexivity.
  - unfold ef_T, Tid. rewrite cos_0, sin_0. f_equal; lra.
  - reflexivity.
  - intros. apply ef_det.
  - intros d Hd. assert (K : (match sdir s with Dfwd => 0 | _ => 0 end) = 0) by (destruct (sdir s); reflexivity).
    assert (DS : is_derive sin d (cos d)) by (apply is_derive_Reals, derivable_pt_lim_sin).
    assert (DC : is_derive cos d (- sin d)) by (apply is_derive_Reals, derivable_pt_lim_cos).
    unfold T_solves_at, ef_T; cbn [t00 t01 t10 t11 d00 d01 d10 d11]. rewrite K.
    repeat match goal with |- _ /\ _ => split end; auto_derive; auto; lra.
Qed.
Example ef_match : exists d th, matchingError ef_T 0 ef_l 0 0 PI 1 Dirichlet Dirichlet true = Ret (0, d, th).
Proof.
  pose proof PI_1.
  destruct (matching_vals ef_T 0 ef_l 0 PI 1 ef_partition ef_strict 0 ltac:(cbn; lia) Dirichlet Dirichlet) as (th & E).
  change (Z.of_nat 0) with 0%Z in E. rewrite E. eexists. eexists. f_equal. f_equal. f_equal.
  unfold yl, yr, Lf, Rf, ef_l, sprop_y, sprop; cbn [firstn skipn rev app fold_left smin smax sdir spay dir_eqb].
  assert (A : negb (Rleb 1 0 && Rleb 1 1 || Rleb 0 0 && Rleb 1 0) = true).
  { apply negb_true_iff, orb_false_iff. split; apply andb_false_iff; [left|right]; apply Rleb_false; lra. }
  assert (B : negb (Rleb PI PI && Rleb PI 1 || Rleb PI 1 && Rleb 1 1) = true).
  { apply negb_true_iff, orb_false_iff. split; apply andb_false_iff; [right|left]; apply Rleb_false; lra. }
  rewrite A, B. assert (Rltb 0 0 = false) as -> by (apply Rltb_false; lra). assert (Rltb 0 1 = true) as -> by (apply Rltb_true; lra).
  assert (Rltb PI PI = false) as -> by (apply Rltb_false; lra). assert (Rltb 1 PI = true) as -> by (apply Rltb_true; lra).
  unfold propagateDelta, sh; cbn [smin smax sdir dir_eqb fst].
  assert (Rleb 0 (1 - 0) = true) as -> by (apply Rleb_true; lra). assert (Rltb (1 - 0) (1 - 0) = false) as -> by (apply Rltb_false; lra).
  assert (Rleb 0 ((1 - PI) * -1) = true) as -> by (apply Rleb_true; lra). assert (Rltb (PI - 1) ((1 - PI) * -1) = false) as -> by (apply Rltb_false; lra).
  unfold ef_T, tmul, reverse, Dirichlet; cbn [t00 t01 t10 t11 d00 d01 d10 d11 y0 y1 e0 e1].
  replace ((1 - PI) * -1) with (PI - 1) by ring. replace (1 - 0) with 1 by ring. rewrite <- (sin_PI_x 1). 
  replace (cos (PI - 1)) with (- cos 1). 2:{ replace (PI - 1) with (PI + - (1)) by ring. rewrite cos_plus, cos_PI, sin_PI, cos_neg. ring. }
  rewrite sin_PI_x. ring.
Qed.

(** ** C32 *)
(** Generic in the number type (binary64 included: NaN points and NaN sector ends allowed). *)
Theorem C32_scalar {T} `{Scalar T} {P St A} (prop : sector T P -> St -> T -> T -> A) zero secs lo hi steps :
  partition lo hi secs -> length steps = S (length secs) ->
  forall x, exists v, ef_scalar prop zero secs lo hi steps x = Ret v /\ (slt x lo || slt hi x = true -> v = zero).
Proof. intros. apply ef_scalar_total; auto. Qed.
Theorem C32_array {T} `{Scalar T} {P St A} (prop : sector T P -> St -> T -> T -> A) zero secs lo hi steps :
  partition lo hi secs -> length steps = S (length secs) ->
  forall xs, exists vs, ef_array prop zero secs lo hi steps xs = Ret vs /\
    Forall2 (fun x v => slt x lo || slt hi x = true -> v = zero) xs vs.
Proof.
  intros Hp Hs xs. pose proof (n_pos secs lo hi Hp).
  destruct (ef_array_total prop zero secs lo hi steps Hp Hs xs 0%Z ltac:(lia)) as (vs & E & F). exists vs. split; [exact E|].
  eapply Forall2_impl; [|exact F]. cbn. intros x v K O. rewrite O in K. exact K.
Qed.
(** The whole call: construction of the eigenfunction and its evaluation. *)
Theorem C32_eigenfunction calcT vm l m lo hi E left right :
  partition lo hi l -> (0 <= m < Z.of_nat (length l))%Z ->
  (forall x, exists v, eigenfunction_at calcT vm l m E lo hi left right x = Ret v /\ (x < lo \/ hi < x -> v = (0, 0))) /\
  (forall xs, exists vs, eigenfunction_on calcT vm l m E lo hi left right xs = Ret vs /\
     Forall2 (fun x v => x < lo \/ hi < x -> v = (0, 0)) xs vs).
Proof.
  intros Hp Hm. assert (HM : (Z.to_nat m < length l)%nat) by lia. replace m with (Z.of_nat (Z.to_nat m)) by lia.
  pose proof (steps_val calcT vm l E (Z.to_nat m) HM left right) as SV. pose proof (steps_length calcT vm l E (Z.to_nat m) HM left right) as SL.
  assert (Q : forall x, x < lo \/ hi < x -> slt x lo || slt hi x = true).
  { intros x [K|K]; apply orb_true_iff; [left|right]; apply Rltb_true; auto. }
  split.
  - intros x. unfold eigenfunction_at. rewrite SV. cbn [bind].
    destruct (C32_scalar (ef_prop calcT vm E) (0, 0) l lo hi _ Hp SL x) as (v & Ev & Z). exists v. auto.
  - intros xs. unfold eigenfunction_on. rewrite SV. cbn [bind].
    destruct (C32_array (ef_prop calcT vm E) (0, 0) l lo hi _ Hp SL xs) as (vs & Ev & F). exists vs. split; [exact Ev|].
    eapply Forall2_impl; [|exact F]. cbn. auto.
Qed.
Example C32_case : exists v, eigenfunction_at ef_T 0 ef_l 0 1 0 PI Dirichlet Dirichlet 2 = Ret v.
Proof. destruct (proj1 (C32_eigenfunction ef_T 0 ef_l 0 0 PI 1 Dirichlet Dirichlet ef_partition ltac:(cbn; lia)) 2) as (v & E & _). eauto. Qed.
Example C32_case_nan : exists v, @ef_array float Scalar_F unit unit bool (fun _ _ _ _ => true) false
  [mkSector 0%float 1%float Dfwd tt; mkSector 1%float nan Dbwd tt] 0%float nan [tt; tt; tt] [nan; (-1)%float; 0.5%float] = Ret v.
Proof.
  destruct (@C32_array float Scalar_F unit unit bool (fun _ _ _ _ => true) false
    [mkSector 0%float 1%float Dfwd tt; mkSector 1%float nan Dbwd tt] 0%float nan [tt; tt; tt]) with (xs := [nan; (-1)%float; 0.5%float]) as (vs & E & _).
  - split; [discriminate|cbn; auto].
  - reflexivity.
  - exists vs. exact E.
Qed.

(** ** C33 *)
Section Problem.
Variable calcT : sec -> R -> R -> bool -> Tm.
Variables (vm : R) (l : list sec) (m : Z) (lo hi E : R) (left right : Y).
Hypothesis Hp : partition lo hi l.
Hypothesis Ho : forall s, In s l -> smin s < smax s.
Hypothesis Hm : (0 <= m < Z.of_nat (length l))%Z.
Hypothesis Hd : directions_ok l m.
Notation f := (eigenfunction_at calcT vm l m E lo hi left right).
(** left boundary condition: no further hypothesis *)
Theorem C33_left : exists c, 0 < c /\ f lo = Ret (c * y0 left, c * y1 left).
Proof.
  destruct (IZN m ltac:(lia)) as [M Em]. assert (HM : (M < length l)%nat) by lia. rewrite Em in *.
  rewrite (at_lo calcT vm l lo hi E Hp Ho M HM left right).
  destruct (first_sec l lo hi Hp) as (s & Es & Ms). change 0%Z with (Z.of_nat 0).
  rewrite (efin_l calcT vm l E M HM left right Hd 0 s lo ltac:(lia) Es). rewrite yp_min by lra.
  exists (cl calcT vm l E M left right). split.
  - unfold cl. pose proof (norm_pos calcT vm l E M left right). apply Rdiv_lt_0_compat; lra.
  - unfold val2, yscale, Lf; cbn. f_equal. f_equal; ring.
Qed.
(** right boundary condition: when the last sector is a backward one (more than one sector beyond the
    matching sector); the scaling may be 0 when E is not an eigenvalue. *)
Theorem C33_right : (m < Z.of_nat (length l) - 1)%Z -> exists c, f hi = Ret (c * y0 right, c * y1 right).
Proof.
  intros Lm. destruct (IZN m ltac:(lia)) as [M Em]. assert (HM : (M < length l)%nat) by lia. rewrite Em in *.
  rewrite (at_hi calcT vm l lo hi E Hp Ho M HM left right).
  destruct (last_sec l lo hi Hp) as (s & Es & Ms). replace (Z.of_nat (length l) - 1)%Z with (Z.of_nat (length l - 1)) in * by lia. rewrite Nat2Z.id in Es.
  rewrite (efin_r calcT vm l E M HM left right Hd (length l - 1) s hi ltac:(lia) Es). rewrite yp_max by lra.
  replace (S (length l - 1)) with (length l) by lia. rewrite Rf_end.
  eexists. unfold val2, yscale; cbn. f_equal. f_equal; apply Rmult_comm.
Qed.

(** For an eigenvalue: matching error exactly 0. *)
Hypothesis H0 : exists d th, matchingError calcT vm l m lo hi E left right true = Ret (0, d, th).
Hypothesis Dt : forall s d, In s l -> det (calcT s E d true) <> 0.
Hypothesis Nl : nonzero left.
Hypothesis Nr : nonzero right.
Lemma match_zero M : m = Z.of_nat M -> (M < length l)%nat ->
  y1 (yl calcT vm l E M left) * y0 (yr calcT vm l E M right) - y1 (yr calcT vm l E M right) * y0 (yl calcT vm l E M left) = 0 /\
  nonzero (yl calcT vm l E M left) /\ nonzero (yr calcT vm l E M right).
Proof.
  intros Em HM. destruct H0 as (d & th & K). rewrite Em in K.
  destruct (matching_vals calcT vm l lo hi E Hp Ho M HM left right) as (th' & K'). rewrite K in K'.
  assert (G : forall a b c a' b' c' : R, Ret (a, b, c) = Ret (a', b', c') -> a = a' :> R) by (intros; congruence).
  apply G in K'. split; [congruence|]. split; [apply Lf_nonzero|apply Rf_nonzero]; auto.
Qed.
Theorem C33_eigenfunction :
  (exists c, c <> 0 /\ f lo = Ret (c * y0 left, c * y1 left)) /\ (exists c, c <> 0 /\ f hi = Ret (c * y0 right, c * y1 right)).
Proof.
  split.
  - destruct C33_left as (c & Hc & K). exists c. split; [lra|auto].
  - destruct (IZN m ltac:(lia)) as [M Em]. assert (HM : (M < length l)%nat) by lia.
    destruct (match_zero _ Em HM) as (Z & Ny & Nz). rewrite Em in *.
    destruct (ratio_match _ _ Z Ny Nz) as (RA & RB & RN). pose proof (norm_pos calcT vm l E M left right) as NP.
    exists (cr calcT vm l E M left right). split.
    { unfold cr. intros K. apply RN. apply (Rmult_eq_reg_r (/ norm_of (yl calcT vm l E M left) (yr calcT vm l E M right) (ratio (yl calcT vm l E M left) (yr calcT vm l E M right)))).
      - unfold Rdiv in K. rewrite K. ring.
      - apply Rinv_neq_0_compat. lra. }
    rewrite (at_hi calcT vm l lo hi E Hp Ho M HM left right).
    destruct (last_sec l lo hi Hp) as (s & Es & Ms). replace (Z.of_nat (length l) - 1)%Z with (Z.of_nat (length l - 1)) in * by lia. rewrite Nat2Z.id in Es.
    destruct (Nat.eq_dec M (length l - 1)) as [KM|KM].
    + rewrite (efin_l calcT vm l E M HM left right Hd (length l - 1) s hi ltac:(lia) Es).
      pose proof (Lf_S calcT vm l E left (length l - 1) s Es) as LS. cbn beta in LS. rewrite <- Ms, <- LS.
      replace (S (length l - 1)) with (S M) by lia. fold (yl calcT vm l E M left).
      rewrite (match_vals calcT vm l E M left right Z Ny Nz).
      assert (YR : yr calcT vm l E M right = right) by (unfold yr; replace (S M) with (length l) by lia; apply Rf_end).
      unfold val2, yscale; cbn [y0 y1]. rewrite YR. f_equal. f_equal; apply Rmult_comm.
    + rewrite (efin_r calcT vm l E M HM left right Hd (length l - 1) s hi ltac:(lia) Es). rewrite yp_max by lra.
      replace (S (length l - 1)) with (length l) by lia. rewrite Rf_end. unfold val2, yscale; cbn. f_equal. f_equal; apply Rmult_comm.
Qed.

(** ** C34 *)
(** The values computed in two neighbouring sectors agree at their common end point, and pointwise
    evaluation returns this value: whichever sector a point is assigned to, the result is the same. *)
Theorem C34_any_sector i s x : nth_error l i = Some s -> smin s <= x <= smax s ->
  f x = from_sector calcT vm l m E left right i x.
Proof.
  intros Es Hx. destruct (IZN m ltac:(lia)) as [M Em]. assert (HM : (M < length l)%nat) by lia.
  destruct (match_zero _ Em HM) as (Z & Ny & Nz). rewrite Em in *.
  rewrite (any_sector calcT vm l lo hi E Hp Ho M HM left right Hd Z Ny Nz i s x Es Hx).
  unfold from_sector. rewrite steps_val by auto. reflexivity.
Qed.
Theorem C34_boundary i s s' : nth_error l i = Some s -> nth_error l (S i) = Some s' ->
  smax s = smin s' /\ from_sector calcT vm l m E left right i (smax s) = from_sector calcT vm l m E left right (S i) (smax s).
Proof.
  intros Es Es'. assert (K : smin s' = smax s) by (destruct Hp as [_ C]; eapply chain_nth; eauto). split; auto.
  pose proof (Ho s (nth_error_In _ _ Es)). pose proof (Ho s' (nth_error_In _ _ Es')).
  rewrite <- (C34_any_sector i s (smax s)), <- (C34_any_sector (S i) s' (smax s)) by (auto; lra). reflexivity.
Qed.
(** With sector propagators continuous in the target point, value and derivative are continuous on [lo, hi]. *)
Definition value_at (x : R) : R := match f x with Ret v => fst v | _ => 0 end.
Definition deriv_at (x : R) : R := match f x with Ret v => snd v | _ => 0 end.
Theorem C34_continuous :
  (forall s y c, In s l -> smin s <= c <= smax s ->
     cont_on (fun x => y0 (sprop_y calcT vm s E y c x true)) (smin s) (smax s) /\
     cont_on (fun x => y1 (sprop_y calcT vm s E y c x true)) (smin s) (smax s)) ->
  cont_on value_at lo hi /\ cont_on deriv_at lo hi.
Proof.
  intros C.
  assert (SC : forall i s, nth_error l i = Some s -> cont_on value_at (smin s) (smax s) /\ cont_on deriv_at (smin s) (smax s)).
  { intros i s Es. pose proof (nth_error_In _ _ Es) as Is. pose proof (Ho s Is).
    assert (HM : (Z.to_nat m < length l)%nat) by lia. assert (Em : m = Z.of_nat (Z.to_nat m)) by lia.
    pose proof (C34_any_sector i s) as AS. unfold from_sector in AS.
    pose proof (steps_val calcT vm l E (Z.to_nat m) HM left right) as SV. rewrite <- Em in SV. rewrite SV in AS. cbn [bind] in AS.
    fold (thesteps calcT vm l E (Z.to_nat m) left right) in AS. rewrite Em in Hd.
    destruct (le_lt_dec i (Z.to_nat m)) as [L|L].
    - destruct (C s (Lf calcT vm l E left i) (smin s) Is ltac:(lra)) as [C0 C1]. split.
      + eapply cont_ext; [|apply (cont_scal _ (cl calcT vm l E (Z.to_nat m) left right) _ _ C0)].
        intros x Hx. unfold value_at. rewrite (AS x Es Hx). rewrite (efin_l calcT vm l E (Z.to_nat m) HM left right Hd i s x L Es). reflexivity.
      + eapply cont_ext; [|apply (cont_scal _ (cl calcT vm l E (Z.to_nat m) left right) _ _ C1)].
        intros x Hx. unfold deriv_at. rewrite (AS x Es Hx). rewrite (efin_l calcT vm l E (Z.to_nat m) HM left right Hd i s x L Es). reflexivity.
    - destruct (C s (Rf calcT vm l E right (S i)) (smax s) Is ltac:(lra)) as [C0 C1]. split.
      + eapply cont_ext; [|apply (cont_scal _ (cr calcT vm l E (Z.to_nat m) left right) _ _ C0)].
        intros x Hx. unfold value_at. rewrite (AS x Es Hx). rewrite (efin_r calcT vm l E (Z.to_nat m) HM left right Hd i s x L Es). reflexivity.
      + eapply cont_ext; [|apply (cont_scal _ (cr calcT vm l E (Z.to_nat m) left right) _ _ C1)].
        intros x Hx. unfold deriv_at. rewrite (AS x Es Hx). rewrite (efin_r calcT vm l E (Z.to_nat m) HM left right Hd i s x L Es). reflexivity. }
  pose proof (chain_order l lo hi (proj2 Hp) (OS' l Ho)) as [Hlh Hin].
  assert (G : forall k s, nth_error l k = Some s -> cont_on value_at lo (smax s) /\ cont_on deriv_at lo (smax s)).
  { induction k as [|k IH]; intros s Es.
    - destruct (first_sec l lo hi Hp) as (s0 & E0 & M0). rewrite Es in E0. injection E0 as <-. pose proof (SC 0%nat s Es) as Q. rewrite M0 in Q. exact Q.
    - assert (Lk : (S k < length l)%nat) by (apply nth_error_Some; congruence).
      destruct (nth_error l k) as [t|] eqn:Et; [|apply nth_error_None in Et; lia].
      pose proof (chain_nth l lo hi k t s (proj2 Hp) Et Es) as K. destruct (IH t eq_refl) as [I0 I1]. destruct (SC _ _ Es) as [S0 S1].
      pose proof (Hin t (nth_error_In _ _ Et)). pose proof (Ho t (nth_error_In _ _ Et)). pose proof (Ho s (nth_error_In _ _ Es)).
      rewrite K in S0, S1. split; eapply cont_glue; try eassumption; lra. }
  destruct (last_sec l lo hi Hp) as (s & Es & Ms). pose proof (G _ s Es) as Q. rewrite Ms in Q. exact Q.
Qed.

(** ** C36, part: for an eigenvalue, array evaluation is exactly pointwise evaluation. *)
Theorem C36_eigenvalue xs : exists vs, eigenfunction_on calcT vm l m E lo hi left right xs = Ret vs /\ Forall2 (fun x v => f x = Ret v) xs vs.
Proof.
  assert (HM : (Z.to_nat m < length l)%nat) by lia. assert (Em : m = Z.of_nat (Z.to_nat m)) by lia.
  pose proof (steps_val calcT vm l E (Z.to_nat m) HM left right) as SV. rewrite <- Em in SV.
  pose proof (steps_length calcT vm l E (Z.to_nat m) HM left right) as SL.
  unfold eigenfunction_on. rewrite SV. cbn [bind].
  destruct (array_where (ef_prop calcT vm E) (0, 0) l lo hi _ Hp (OL l Ho) SL xs 0%Z ltac:(lia)) as (vs & Ev & F).
  { apply Forall_forall. intros; exact I. }
  exists vs. split; [exact Ev|]. eapply Forall2_impl; [|exact F]. cbn beta. intros x v K.
  destruct (slt x lo || slt hi x) eqn:O.
  - subst v. unfold eigenfunction_at. rewrite SV. cbn [bind]. unfold ef_scalar. rewrite O. reflexivity.
  - destruct K as (j & s & Hj & Es & Cs & Kv). rewrite (C34_any_sector _ s x Es) by (apply contains_R; auto).
    unfold from_sector. rewrite SV. cbn [bind]. rewrite Z2Nat.id by lia. exact Kv.
Qed.
End Problem.

Example C34_case i s x : nth_error ef_l i = Some s -> smin s <= x <= smax s ->
  eigenfunction_at ef_T 0 ef_l 0 1 0 PI Dirichlet Dirichlet x = from_sector ef_T 0 ef_l 0 1 Dirichlet Dirichlet i x.
Proof.
  apply C34_any_sector; auto using ef_partition, ef_strict, ef_dirs, ef_match; try (cbn; lia); try (right; cbn; lra).
  intros s0 d _. destruct (ef_det s0 1 d true). lra.
Qed.
Example C34_continuous_case : cont_on (value_at ef_T 0 ef_l 0 0 PI 1 Dirichlet Dirichlet) 0 PI.
Proof.
  apply C34_continuous; auto using ef_partition, ef_strict, ef_dirs, ef_match; try (cbn; lia); try (right; cbn; lra).
  - intros s0 d _. destruct (ef_det s0 1 d true). lra.
  - intros s y c Hs Hc. apply (exact_cont _ _ _ _ _ (ef_exact s Hs) y c Hc).
Qed.
Example C33_case : exists c, c <> 0 /\ eigenfunction_at ef_T 0 ef_l 0 1 0 PI Dirichlet Dirichlet PI = Ret (c * 0, c * 1).
Proof.
  apply (C33_eigenfunction ef_T 0 ef_l 0 0 PI 1 Dirichlet Dirichlet); auto using ef_partition, ef_strict, ef_dirs, ef_match; try (cbn; lia); try (right; cbn; lra).
  intros s0 d _. destruct (ef_det s0 1 d true). lra.
Qed.

(** Dirichlet ends: the eigenfunction vanishes there and its derivative does not; Neumann ends: the converse. *)
Theorem C33_dirichlet_neumann calcT vm l m lo hi E left right :
  partition lo hi l -> (forall s, In s l -> smin s < smax s) -> (0 <= m < Z.of_nat (length l))%Z -> directions_ok l m ->
  (exists d th, matchingError calcT vm l m lo hi E left right true = Ret (0, d, th)) ->
  (forall s d, In s l -> det (calcT s E d true) <> 0) -> nonzero left -> nonzero right ->
  let f := eigenfunction_at calcT vm l m E lo hi left right in
  (left = Dirichlet -> exists d, d <> 0 /\ f lo = Ret (0, d)) /\ (left = Neumann -> exists v, v <> 0 /\ f lo = Ret (v, 0)) /\
  (right = Dirichlet -> exists d, d <> 0 /\ f hi = Ret (0, d)) /\ (right = Neumann -> exists v, v <> 0 /\ f hi = Ret (v, 0)).
Proof.
  intros Hp Ho Hm Hd H0 Dt Nl Nr f.
  destruct (C33_eigenfunction calcT vm l m lo hi E left right Hp Ho Hm Hd H0 Dt Nl Nr) as ((c & Hc & F) & (d & Hd' & G)). unfold f.
  split; [|split; [|split]]; intros ->; rewrite ?F, ?G; cbn [y0 y1 Dirichlet Neumann]; rewrite Rmult_0_r, Rmult_1_r; eauto.
Qed.

(** ** C35 *)
(** If each sector's propagation is exact for its potential and the boundary conditions do not depend
    on E (their energy derivatives are 0), the squared eigenfunction integrates to 1.  No matching is
    needed; in the model x/0 is a real number, so for an energy at which the code divides by 0 in
    [ratio] this says nothing about the code (at eigenvalues it does not, see ratio_match). *)
Theorem C35_unit_norm calcT vm l m lo hi E left right (V : sec -> R -> R) :
  partition lo hi l -> (forall s, In s l -> smin s < smax s) -> (0 <= m < Z.of_nat (length l))%Z -> directions_ok l m ->
  (forall s, In s l -> exact_propagator (fun y a b => sprop_y calcT vm s E y a b true) (V s) E (smin s) (smax s)) ->
  e0 left = 0 -> e1 left = 0 -> e0 right = 0 -> e1 right = 0 -> nonzero left ->
  is_RInt (fun x => ef_value calcT vm l m E lo hi left right x * ef_value calcT vm l m E lo hi left right x) lo hi 1.
Proof.
  intros Hp Ho Hm Hd EX L0 L1 R0 R1 N. replace m with (Z.of_nat (Z.to_nat m)) in * by lia.
  apply norm_one with (V := V); auto; try lia; unfold Wr.
  - rewrite L0, L1. ring.
  - rewrite R0, R1. ring.
Qed.
(** The same, exactness stated for the step matrices of calculateT. *)
Theorem C35_unit_norm_T calcT vm l m lo hi E left right (v : R -> R) :
  partition lo hi l -> (forall s, In s l -> smin s < smax s) -> (0 <= m < Z.of_nat (length l))%Z -> directions_ok l m ->
  (forall s, In s l -> exists t : R -> Tm, t 0 = Tid /\ forall d, 0 <= d <= sh s ->
     t d = calcT s E d true /\ det (t d) = 1 /\ ddet (t d) = 0 /\
     T_solves_at t (fun d => match sdir s with Dfwd => v (smin s + d) | _ => v (smax s - d) end) E d) ->
  e0 left = 0 -> e1 left = 0 -> e0 right = 0 -> e1 right = 0 -> nonzero left ->
  is_RInt (fun x => ef_value calcT vm l m E lo hi left right x * ef_value calcT vm l m E lo hi left right x) lo hi 1.
Proof.
  intros Hp Ho Hm Hd EX. intros. apply C35_unit_norm with (V := fun _ => v); auto.
  intros s Hs. destruct (EX s Hs) as (t & T0 & K). apply In_nth_error in Hs as Hn. destruct Hn as [k Hk].
  apply exact_of_T with (t := t); auto; try (intros d Hd'; destruct (K d Hd') as (A & B & C & D); auto).
  pose proof (Hd k s Hk) as D. unfold directed. destruct (Z.of_nat k <=? m)%Z; auto.
Qed.
Example C35_case : is_RInt (fun x => ef_value ef_T 0 ef_l 0 1 0 PI Dirichlet Dirichlet x * ef_value ef_T 0 ef_l 0 1 0 PI Dirichlet Dirichlet x) 0 PI 1.
Proof.
  apply C35_unit_norm with (V := fun _ _ => 0); auto using ef_partition, ef_strict, ef_dirs, ef_exact.
  - cbn; lia.
  - right; cbn; lra.
Qed.

(** ** C36 *)
(** Any energy: the array result at x is the pointwise one, or x is an interior sector end and the
    result is that of the sector ending there. *)
Theorem C36_array calcT vm l m lo hi E left right xs :
  partition lo hi l -> (forall s, In s l -> smin s < smax s) -> (0 <= m < Z.of_nat (length l))%Z ->
  exists vs, eigenfunction_on calcT vm l m E lo hi left right xs = Ret vs /\
    Forall2 (fun x v => eigenfunction_at calcT vm l m E lo hi left right x = Ret v \/
      exists i s s', nth_error l i = Some s /\ nth_error l (S i) = Some s' /\ x = smax s /\ x = smin s' /\
        from_sector calcT vm l m E left right i x = Ret v) xs vs.
Proof.
  intros Hp Ho Hm. assert (HM : (Z.to_nat m < length l)%nat) by lia. assert (Em : m = Z.of_nat (Z.to_nat m)) by lia.
  pose proof (steps_val calcT vm l E (Z.to_nat m) HM left right) as SV. rewrite <- Em in SV.
  pose proof (steps_length calcT vm l E (Z.to_nat m) HM left right) as SL.
  unfold eigenfunction_on. rewrite SV. cbn [bind].
  destruct (array_where (ef_prop calcT vm E) (0, 0) l lo hi _ Hp (OL l Ho) SL xs 0%Z ltac:(lia)) as (vs & Ev & F).
  { apply Forall_forall. intros; exact I. }
  exists vs. split; [exact Ev|]. eapply Forall2_impl; [|exact F]. cbn beta. intros x v K.
  destruct (slt x lo || slt hi x) eqn:O.
  - left. subst v. unfold eigenfunction_at. rewrite SV. cbn [bind]. unfold ef_scalar. rewrite O. reflexivity.
  - destruct K as (j & s & Hj & Es & Cs & Kv). apply contains_R in Cs.
    destruct (Rlt_le_dec x (smax s)) as [L|L].
    + left. rewrite Em. rewrite (at_interior calcT vm l lo hi E Hp Ho (Z.to_nat m) HM left right _ s x Es) by lra. rewrite Z2Nat.id by lia. exact Kv.
    + assert (x = smax s) by lra. destruct (nth_error l (S (Z.to_nat j))) as [s'|] eqn:E'.
      * right. exists (Z.to_nat j), s, s'. split; auto. split; auto. split; auto. split.
        { destruct Hp as [_ C]. rewrite (chain_nth l lo hi (Z.to_nat j) s s' C Es E'). auto. }
        unfold from_sector. rewrite SV. cbn [bind]. rewrite Z2Nat.id by lia. exact Kv.
      * left. apply nth_error_None in E'. destruct (last_sec l lo hi Hp) as (t & Et & Mt). replace (Z.of_nat (length l) - 1)%Z with j in Et by lia.
        rewrite Es in Et. injection Et as <-. rewrite Em. replace x with hi by lra. rewrite (at_hi calcT vm l lo hi E Hp Ho (Z.to_nat m) HM left right).
        replace (Z.of_nat (length l) - 1)%Z with j by lia. rewrite <- Mt, <- H. exact Kv.
Qed.
(** For doubles too (points that are not NaN): both evaluations use a sector containing the point. *)
Theorem C36_contains {T} `{OrderLaws T} {P St A} (prop : sector T P -> St -> T -> T -> A) zero secs lo hi steps xs :
  partition lo hi secs -> ordered secs -> length steps = S (length secs) -> (forall x, In x xs -> ok x) ->
  exists vs, ef_array prop zero secs lo hi steps xs = Ret vs /\
    Forall2 (fun x v => if slt x lo || slt hi x then v = zero /\ ef_scalar prop zero secs lo hi steps x = Ret zero
       else exists i j s t, nth_error secs i = Some s /\ contains s x = true /\ ef_in prop secs steps (Z.of_nat i) x = Ret v /\
            nth_error secs j = Some t /\ contains t x = true /\ ef_scalar prop zero secs lo hi steps x = ef_in prop secs steps (Z.of_nat j) x) xs vs.
Proof.
  intros Hp Ho Hs Hx. pose proof (n_pos secs lo hi Hp).
  destruct (array_where prop zero secs lo hi steps Hp Ho Hs xs 0%Z ltac:(lia)) as (vs & Ev & F). { apply Forall_forall; exact Hx. }
  exists vs. split; [exact Ev|].
  eapply Forall2_impl_in; [|exact F]. cbn beta. intros x v Ix K.
  destruct (slt x lo || slt hi x) eqn:O.
  - split; auto. unfold ef_scalar. rewrite O. reflexivity.
  - destruct K as (j & s & Hj & Es & Cs & Kv).
    destruct (scalar_where prop zero secs lo hi steps Hp Ho Hs x (Hx x Ix) O) as (k & t & Hk & Et & Ct & _ & Ek).
    exists (Z.to_nat j), (Z.to_nat k), s, t. rewrite !Z2Nat.id by lia. repeat match goal with |- _ /\ _ => split end; auto.
Qed.
Example C36_case : exists vs, eigenfunction_on ef_T 0 ef_l 0 1 0 PI Dirichlet Dirichlet [2; 1; -1; 0.5; 1] = Ret vs /\
  Forall2 (fun x v => eigenfunction_at ef_T 0 ef_l 0 1 0 PI Dirichlet Dirichlet x = Ret v) [2; 1; -1; 0.5; 1] vs.
Proof.
  apply C36_eigenvalue; auto using ef_partition, ef_strict, ef_dirs, ef_match; try (cbn; lia); try (right; cbn; lra).
  intros s0 d _. destruct (ef_det s0 1 d true). lra.
Qed.

Print Assumptions C32_scalar.
Print Assumptions C32_array.
Print Assumptions C32_eigenfunction.
Print Assumptions C33_left.
Print Assumptions C33_right.
Print Assumptions C33_eigenfunction.
Print Assumptions C34_any_sector.
Print Assumptions C34_boundary.
Print Assumptions C34_continuous.
Print Assumptions C35_unit_norm.
Print Assumptions C35_unit_norm_T.
Print Assumptions C36_array.
Print Assumptions C36_contains.
Print Assumptions C36_eigenvalue.
