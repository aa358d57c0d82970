(** C12, C13, C17 - C24: propagation, Pruefer angles, matching error. *)
From Coq Require Import Floats String ZArith QArith Reals List Lra Lia Psatz Bool.
From Coquelicot Require Import Coquelicot.
From Verif Require Import Base M_Sectors M_LegendreData M_Legendre M_Core S_Sectors S_Core S_Poly P_Lookup P_Poly P_Prufer P_Core P_Core2.
Import ListNotations.
Open Scope R_scope.

(** [calcT s E delta use_h] is an arbitrary propagation-matrix function throughout: the theorems
    hold for the CPM formulas (M_Formulas) and for every other choice. *)

(** ** A concrete problem meeting the hypotheses below: two sectors, one of each direction, with
    the exact propagator of the free equation at zero energy difference. *)
Definition ex_l : list sec := [mkSector 0 1 Dfwd [0]; mkSector 1 3 Dbwd [2]].
Definition ex_T (s : sec) (E d : R) (u : bool) : Tm := mkT 1 d 0 1 0 0 0 0.
Example ex_partition : partition 0 3 ex_l.
Proof. split; [discriminate|]. cbn. auto. Qed.
Example ex_ordered : forall s, In s ex_l -> smin s < smax s /\ directed s.
Proof. intros s [<-|[<-|[]]]; cbn; split; try lra; [left|right]; reflexivity. Qed.
Example ex_ordered' : forall s, In s ex_l -> smin s <= smax s.
Proof. intros s H. apply ex_ordered in H. lra. Qed.
Example ex_det s E d u : det (ex_T s E d u) = 1 /\ ddet (ex_T s E d u) = 0.
Proof. unfold det, ddet, ex_T; cbn. split; ring. Qed.
Example ex_deriv s d u E : T_deriv (fun E => ex_T s E d u) E.
Proof. unfold T_deriv, ex_T; cbn. refine (conj _ (conj _ (conj _ _))); apply @is_derive_const. Qed.
Example ex_nonzero : nonzero Dirichlet /\ nonzero Neumann.
Proof. unfold nonzero; cbn. lra. Qed.

(** ** C12 *)
Theorem C12_product_rule t y E : T_deriv t E -> Y_deriv y E ->
  Y_deriv (fun x => tmul (t x) (y x)) E /\ Y_deriv (fun x => tdiv (t x) (y x)) E.
Proof. split; [apply deriv_tmul|apply deriv_tdiv]; auto. Qed.
(** The energy derivative reported by propagate is the derivative of the reported solution. *)
Theorem C12_propagate calcT vm l lo hi a b u (y : R -> Y) E :
  partition lo hi l -> (forall s, In s l -> smin s <= smax s) -> lo <= a <= hi -> lo <= b <= hi ->
  (forall s d, In s l -> T_deriv (fun E => calcT s E d u) E) -> Y_deriv y E ->
  exists z : R -> Y, (forall x, exists th, propagate calcT vm l lo hi x (y x) a b u = Ret (z x, th)) /\ Y_deriv z E.
Proof.
  intros PT O Ha Hb D Hy. exists (fun x => runY calcT vm (if Rleb a b then l else rev l) x a b u (y x)). split.
  - intros x. apply propagate_full; auto.
  - apply runY_deriv; auto. intros s d Hs. apply D. destruct (Rleb a b); auto. apply in_rev; auto.
Qed.
Example C12_case : exists z : R -> Y, (forall x, exists th, propagate ex_T 0 ex_l 0 3 x Dirichlet 0 2 true = Ret (z x, th)) /\ Y_deriv z 5.
Proof.
  apply (C12_propagate ex_T 0 ex_l 0 3 0 2 true (fun _ => Dirichlet)); try lra; auto using ex_partition, ex_ordered'.
  - intros; apply ex_deriv.
  - split; apply @is_derive_const.
Qed.

(** ** C13 *)
Theorem C13_det t y : tdiv t (tmul t y) =
    mkY (det t * y0 y) (det t * y1 y) (det t * e0 y + ddet t * y0 y) (det t * e1 y + ddet t * y1 y)
  /\ tmul t (tdiv t y) = tdiv t (tmul t y).
Proof. rewrite tdiv_tmul, tmul_tdiv. auto. Qed.
Theorem C13_ddet_is_derivative t E : T_deriv t E -> is_derive (fun x => det (t x)) E (ddet (t E)).
Proof.
  intros [A [B [C D]]]. unfold det, ddet. evar_last.
  - apply is_derive_minusR; apply is_derive_multR; eassumption.
  - cbn. ring.
Qed.
(** Whole-problem version: with Wronskian-preserving step matrices, propagating a -> b -> a returns
    the start, and going from a to c through any b is the same as going directly. *)
Theorem C13_composition calcT vm l lo hi E a b c u y :
  partition lo hi l -> (forall s, In s l -> smin s < smax s /\ directed s) ->
  (forall s d, In s l -> 0 <= d <= sh s -> det (calcT s E d u) = 1 /\ ddet (calcT s E d u) = 0) ->
  lo <= a <= hi -> lo <= b <= hi -> lo <= c <= hi ->
  exists yb yc t1 t2 t3, propagate calcT vm l lo hi E y a b u = Ret (yb, t1) /\
    propagate calcT vm l lo hi E yb b c u = Ret (yc, t2) /\
    propagate calcT vm l lo hi E y a c u = Ret (yc, t3).
Proof.
  intros PT O D Ha Hb Hc.
  assert (O' : forall s, In s l -> smin s <= smax s) by (intros s Hs; destruct (O s Hs); lra).
  assert (G : good calcT l E u). { intros s Hs. destruct (O s Hs). split; [intros d Hd; apply D; auto|auto]. }
  destruct (propagate_full calcT vm l lo hi PT a b O' Ha Hb E y u) as [t1 E1].
  destruct (propagate_full calcT vm l lo hi PT b c O' Hb Hc E (runY calcT vm (if Rleb a b then l else rev l) E a b u y) u) as [t2 E2].
  destruct (propagate_full calcT vm l lo hi PT a c O' Ha Hc E y u) as [t3 E3].
  rewrite (compose_any calcT vm l lo hi PT E a b c u y G) in E2. eauto 10.
Qed.
Theorem C13_round_trip calcT vm l lo hi E a b u y :
  partition lo hi l -> (forall s, In s l -> smin s < smax s /\ directed s) ->
  (forall s d, In s l -> 0 <= d <= sh s -> det (calcT s E d u) = 1 /\ ddet (calcT s E d u) = 0) ->
  lo <= a <= hi -> lo <= b <= hi ->
  exists yb t1 t2, propagate calcT vm l lo hi E y a b u = Ret (yb, t1) /\ propagate calcT vm l lo hi E yb b a u = Ret (y, t2).
Proof.
  intros PT O D Ha Hb.
  assert (O' : forall s, In s l -> smin s <= smax s) by (intros s Hs; destruct (O s Hs); lra).
  assert (G : good calcT l E u). { intros s Hs. destruct (O s Hs). split; [intros d Hd; apply D; auto|auto]. }
  destruct (propagate_full calcT vm l lo hi PT a b O' Ha Hb E y u) as [t1 E1].
  destruct (propagate_full calcT vm l lo hi PT b a O' Hb Ha E (runY calcT vm (if Rleb a b then l else rev l) E a b u y) u) as [t2 E2].
  rewrite (compose_any calcT vm l lo hi PT E a b a u y G) in E2.
  assert (RR : Rleb a a = true) by (apply Rleb_true; lra). rewrite RR, runY_refl in E2 by auto. eauto 10.
Qed.
Example C13_case : exists yb t1 t2, propagate ex_T 0 ex_l 0 3 7 Neumann 0.5 2.5 true = Ret (yb, t1) /\ propagate ex_T 0 ex_l 0 3 7 yb 2.5 0.5 true = Ret (Neumann, t2).
Proof. apply C13_round_trip; try lra; auto using ex_partition, ex_ordered. intros; apply ex_det. Qed.

(** ** C17 *)
Theorem C17_initial_angle vm s E y :
  - (PI / 2) < theta0 vm s E y <= PI / 2 /\
  is_angle (scaling vm E) (theta0 vm s E y) y /\
  (y1 y <> 0 -> tan (theta0 vm s E y) = scaling vm E * y0 y / y1 y) /\
  (y1 y = 0 -> y0 y <> 0 -> theta0 vm s E y = PI / 2) /\
  (forall c, c <> 0 -> theta0 vm s E (yscale c y) = theta0 vm s E y) /\
  (forall s', theta0 vm s' E y = theta0 vm s E y).
Proof.
  repeat split.
  - rewrite theta0_val. apply atan_safe_range.
  - rewrite theta0_val. apply atan_safe_range.
  - apply theta0_angle.
  - intros H. rewrite theta0_val, atan_safe_val. apply Reqb_false in H. rewrite H. apply tan_atan.
  - intros H N. rewrite theta0_val, atan_safe_val. apply Reqb_true in H. rewrite H.
    pose proof (scaling_pos vm E). destruct (Reqb (scaling vm E * y0 y) 0) eqn:Z; auto. apply Reqb_true in Z. apply Rmult_integral in Z. lra.
  - intros c Hc. apply theta0_scale; auto.
  - intros s'. rewrite !theta0_val. reflexivity.
Qed.
(** The scaling is problem-wide (it does not mention the sector) and positive. *)
Theorem C17_scaling vm E : 0 < scaling vm E /\ (E - vm <= 1 -> scaling vm E = 1) /\ (1 < E - vm -> scaling vm E * scaling vm E = E - vm).
Proof.
  split; [apply scaling_pos|]. unfold scaling. split; intros H.
  - apply Rltb_false in H. rewrite H. reflexivity.
  - destruct (Rltb 1 (E - vm)) eqn:K; [|apply Rltb_false in K; lra]. apply sqrt_sqrt. lra.
Qed.
(** The angle at which propagate starts lies in [0, pi) going right and in (0, pi] going left. *)
Theorem C17_start_range vm s E a b y :
  (a <= b -> 0 <= theta_start vm s E a b y < PI) /\ (b < a -> 0 < theta_start vm s E a b y <= PI).
Proof.
  pose proof (C17_initial_angle vm s E y) as [Rg _]. pose proof PIpos. unfold theta_start.
  destruct (Rltb (theta0 vm s E y) 0) eqn:T; [apply Rltb_true in T|apply Rltb_false in T]; cbn [orb].
  - split; intros; lra.
  - destruct (Rltb b a) eqn:AB; [apply Rltb_true in AB|apply Rltb_false in AB]; cbn [andb].
    + destruct (Reqb (theta0 vm s E y) 0) eqn:Z; [apply Reqb_true in Z|apply Reqb_false in Z]; split; intros; lra.
    + split; intros; lra.
Qed.
Example C17_case : theta0 0 (mkSector 0 1 Dfwd [3]) 10 (mkY 1 0 0 0) = PI / 2.
Proof. apply (C17_initial_angle 0 (mkSector 0 1 Dfwd [3]) 10 (mkY 1 0 0 0)); cbn; lra. Qed.

(** ** C18: for every sector list, energy, direction, starting value (also zero), whatever the matrices are. *)
Theorem C18_angle_of_solution calcT vm l lo hi E y a b u y' th :
  propagate calcT vm l lo hi E y a b u = Ret (y', th) -> is_angle (scaling vm E) th y'.
Proof.
  unfold propagate. destruct (_ || _)%bool; [discriminate|].
  destruct (find_sector (length l) l a) as [i|m|m|]; try discriminate. cbn [bind].
  destruct (vget l i) as [s|m|m|]; try discriminate. cbn [bind].
  rewrite prop_loop_visit. destruct (visit _ _ _ _ _) as [ss|m|m|]; try discriminate. cbn [bind].
  intros H. injection H as H.
  pose proof (run_angle calcT vm ss E a b u (y, theta_start vm s E a b y) (start_angle vm s E a b y)) as A.
  rewrite H in A. exact A.
Qed.
Example C18_case : exists y' th, propagate ex_T 2 ex_l 0 3 10 Dirichlet 0 3 true = Ret (y', th) /\ y0 y' = 3 /\ tan th = sqrt 8 * 3.
Proof.
  destruct (propagate_full ex_T 2 ex_l 0 3 ex_partition 0 3 ex_ordered' ltac:(lra) ltac:(lra) 10 Dirichlet true) as [th H].
  eexists _, th. split; [exact H|]. pose proof (C18_angle_of_solution _ _ _ _ _ _ _ _ _ _ _ _ H) as A.
  assert (RR : Rleb 0 3 = true) by (apply Rleb_true; lra). rewrite RR in *.
  set (z := runY _ _ _ _ _ _ _ _) in *.
  assert (Z : y0 z = 3 /\ y1 z = 1).
  { unfold z, runY, ex_l; cbn [fold_left]. rewrite !yprop_kap; try (cbn; lra); try (left; reflexivity); try (right; reflexivity); try (intros d Hd; apply ex_det).
    unfold kap, kapi; cbn [sdir smin smax].
    repeat match goal with |- context [Rltb ?x ?y] => let E := fresh in destruct (Rltb x y) eqn:E; [apply Rltb_true in E; try (exfalso; lra)|apply Rltb_false in E; try (exfalso; lra)] end.
    unfold clip, sh, ex_T, tdiv, tmul, reverse, Dirichlet; cbn [smin smax y0 y1 e0 e1 t00 t01 t10 t11 d00 d01 d10 d11].
    repeat match goal with |- context [Rltb ?x ?y] => let E := fresh in destruct (Rltb x y) eqn:E; [apply Rltb_true in E; try (exfalso; lra)|apply Rltb_false in E; try (exfalso; lra)] end.
    split; lra. }
  destruct Z as [Z0 Z1]. split; [exact Z0|]. unfold is_angle in A. rewrite Z0, Z1 in A.
  assert (Hs : scaling 2 10 = sqrt 8). { unfold scaling. destruct (Rltb 1 (10 - 2)) eqn:E; [f_equal; lra|apply Rltb_false in E; lra]. }
  rewrite Hs in A. unfold tan.
  assert (cos th <> 0). { intros C. pose proof (sin2_cos2 th) as Q. unfold Rsqr in Q. rewrite C in *. assert (sin th = 0) by lra. rewrite H0 in Q. lra. }
  apply (Rmult_eq_reg_r (cos th)); auto. field_simplify; auto. lra.
Qed.

(** ** C19 *)
Theorem C19_increment_nonneg vm s E delta ya yb : v0 s < E -> 0 <= delta -> 0 <= prufer vm s E delta ya yb.
Proof. apply prufer_nonneg. Qed.
Lemma tdelta_sign calcT vm s E u d y : v0 s < E -> smin s <= smax s -> (0 <= d -> sdir s = Dfwd -> 0 <= tdelta calcT vm s E u d y) /\
   (d <= 0 -> sdir s = Dbwd -> tdelta calcT vm s E u d y <= 0) /\ (0 < d -> sdir s = Dbwd -> 0 <= tdelta calcT vm s E u d y) /\ (d < 0 -> sdir s = Dfwd -> tdelta calcT vm s E u d y <= 0).
Proof.
  intros Hv Ho.
  assert (CL : forall d, 0 <= d -> 0 <= (if Rltb (sh s) d then sh s else d)).
  { intros x Hx. destruct (Rltb (sh s) x); auto. unfold sh. lra. }
  unfold tdelta, propagateDelta; cbn [snd].
  repeat split; intros Hd Ed; rewrite Ed; cbn [dir_eqb].
  - assert (Q : Rleb 0 d = true) by (apply Rleb_true; auto). rewrite Q. cbn [Bool.eqb negb]. rewrite Rplus_0_l. apply prufer_nonneg; auto.
  - assert (Q : Rleb 0 (d * -1) = true) by (apply Rleb_true; lra). rewrite Q. cbn [Bool.eqb negb]. rewrite Rplus_0_l.
    match goal with |- - ?p <= 0 => assert (0 <= p); [apply prufer_nonneg; auto; apply CL; lra|lra] end.
  - assert (Q : Rleb 0 (d * -1) = false) by (apply Rleb_false; lra). rewrite Q. cbn [Bool.eqb negb]. rewrite Rplus_0_l. apply prufer_nonneg; auto. apply CL; lra.
  - assert (Q : Rleb 0 d = false) by (apply Rleb_false; auto). rewrite Q. cbn [Bool.eqb negb]. rewrite Rplus_0_l.
    match goal with |- - ?p <= 0 => assert (0 <= p); [apply prufer_nonneg; auto; apply CL; lra|lra] end.
Qed.
(** One sector, crossed left-to-right from (or beyond) its stored end, resp. right-to-left. *)
Theorem C19_sector calcT vm s E y a b u : v0 s < E -> smin s <= smax s ->
  ((sdir s = Dfwd /\ a <= smin s) \/ (sdir s = Dbwd /\ smax s <= b) -> 0 <= snd (sprop calcT vm s E y a b u)) /\
  ((sdir s = Dfwd /\ b <= smin s) \/ (sdir s = Dbwd /\ smax s <= a) -> snd (sprop calcT vm s E y a b u) <= 0).
Proof.
  intros Hv Ho. unfold sprop. cbv zeta.
  destruct (negb _); cbn [snd]; [|split; intros; lra].
  split; intros [[Ed Hx]|[Ed Hx]]; rewrite Ed; cbn [dir_eqb].
  - assert (Q : Rltb (smin s) a = false) by (apply Rltb_false; auto). rewrite Q.
    destruct (Rltb (smin s) b) eqn:B; [apply Rltb_true in B|cbn; lra]. rewrite pdelta_split; cbn [snd]. rewrite Rplus_0_l. apply (proj1 (tdelta_sign calcT vm s E u (b - smin s) y Hv Ho)); auto; lra.
  - assert (Q : Rltb b (smax s) = false) by (apply Rltb_false; auto). rewrite Q.
    destruct (Rltb a (smax s)) eqn:B; [apply Rltb_true in B|cbn; lra]. rewrite pdelta_split; cbn [snd]. rewrite Rplus_0_l. apply (proj1 (proj2 (proj2 (tdelta_sign calcT vm s E u (smax s - a) y Hv Ho)))); auto; lra.
  - assert (Q : Rltb (smin s) b = false) by (apply Rltb_false; auto). rewrite Q.
    destruct (Rltb (smin s) a) eqn:B; [apply Rltb_true in B|cbn; lra]. rewrite pdelta_split; cbn [snd]. rewrite Rplus_0_l. apply (proj2 (proj2 (proj2 (tdelta_sign calcT vm s E u (smin s - a) y Hv Ho)))); auto; lra.
  - assert (Q : Rltb a (smax s) = false) by (apply Rltb_false; auto). rewrite Q.
    destruct (Rltb b (smax s)) eqn:B; [apply Rltb_true in B|cbn; lra]. rewrite pdelta_split; cbn [snd]. rewrite Rplus_0_l. apply (proj1 (proj2 (tdelta_sign calcT vm s E u (b - smax s) y Hv Ho))); auto; lra.
Qed.
Lemma dir_split (l : list sec) lo hi m sm k s : partition lo hi l -> (forall s, In s l -> smin s <= smax s) -> directions_ok l m -> (0 <= m)%Z ->
  nth_error l (Z.to_nat m) = Some sm -> nth_error l k = Some s ->
  (sdir s = Dfwd /\ smax s <= smax sm) \/ (sdir s = Dbwd /\ smax sm <= smin s).
Proof.
  intros [_ Ch] O DO Hm Em Hk. assert (OL : ordered l) by (apply ord_l; auto). pose proof (DO k s Hk) as Dk.
  destruct (Z.leb_spec (Z.of_nat k) m); [left|right]; split; auto.
  - destruct (chain_mono l lo hi k (Z.to_nat m) s sm Ch OL ltac:(lia) Hk Em) as [_ M2]. apply Rleb_true in M2. exact M2.
  - assert (exists s1, nth_error l (S (Z.to_nat m)) = Some s1) as [s1 H1]. { assert (k < length l)%nat by (apply nth_error_Some; congruence). destruct (nth_error l (S (Z.to_nat m))) eqn:Q; eauto. apply nth_error_None in Q. lia. }
    pose proof (chain_nth l lo hi _ sm s1 Ch Em H1) as M1.
    destruct (chain_mono l lo hi (S (Z.to_nat m)) k s1 s Ch OL ltac:(lia) H1 Hk) as [M2 _]. apply Rleb_true in M2. lra.
Qed.
Lemma path_in (l : list sec) i j s : In s (path l i j) -> In s l.
Proof.
  assert (F : forall n k s, In s (firstn n (skipn k l)) -> In s l).
  { intros n k t H. rewrite <- (firstn_skipn k l). apply in_app_iff. right. rewrite <- (firstn_skipn n (skipn k l)). apply in_app_iff. auto. }
  unfold path. destruct (i <=? j)%nat; [apply F|]. intros H. apply in_rev in H. eapply F; eauto.
Qed.
(** A whole problem above its sector mean potentials: propagating from the left end to any point up to
    the matching point the angle is >= 0, from the right end down to it it is <= pi. *)
Theorem C19_problem calcT vm l lo hi m sm E y b u y' th :
  partition lo hi l -> (forall s, In s l -> smin s <= smax s) -> directions_ok l m ->
  (0 <= m)%Z -> nth_error l (Z.to_nat m) = Some sm -> (forall s, In s l -> v0 s < E) -> lo <= b <= hi ->
  (b <= smax sm -> propagate calcT vm l lo hi E y lo b u = Ret (y', th) -> 0 <= th) /\
  (smax sm <= b -> propagate calcT vm l lo hi E y hi b u = Ret (y', th) -> th <= PI).
Proof.
  intros PT O DO Hm Em HE Hb.
  assert (RUN : forall ss a, (forall s, In s ss -> In s l /\ ((sdir s = Dfwd /\ a <= smin s) \/ (b <= smin s /\ a <= smin s))) -> forall st, snd st <= snd (run calcT vm ss E a b u st)).
  { intros ss a. induction ss as [|s ss IH]; intros H st; [cbn; lra|]. change (snd st <= snd (run calcT vm ss E a b u (run1 calcT vm E a b u st s))).
    eapply Rle_trans; [|apply IH; intros; apply H; cbn; auto]. unfold run1; cbn [snd]. destruct (H s (or_introl eq_refl)) as [Hs Hc].
    assert (0 <= tprop calcT vm s E a b u (fst st)); [|lra]. unfold tprop.
    destruct Hc as [Hc|Hc]; [apply C19_sector; auto|]. rewrite yprop_noop by (right; lra). cbn; lra. }
  assert (RUN2 : forall ss a, (forall s, In s ss -> In s l /\ ((sdir s = Dbwd /\ smax s <= a) \/ (smax s <= b /\ smax s <= a))) -> forall st, snd (run calcT vm ss E a b u st) <= snd st).
  { intros ss a. induction ss as [|s ss IH]; intros H st; [cbn; lra|]. change (snd (run calcT vm ss E a b u (run1 calcT vm E a b u st s)) <= snd st).
    eapply Rle_trans; [apply IH; intros; apply H; cbn; auto|]. unfold run1; cbn [snd]. destruct (H s (or_introl eq_refl)) as [Hs Hc].
    assert (tprop calcT vm s E a b u (fst st) <= 0); [|lra]. unfold tprop.
    destruct Hc as [Hc|Hc]; [apply C19_sector; auto|]. rewrite yprop_noop by (left; lra). cbn; lra. }
  destruct (chain_order l lo hi (proj2 PT) O) as [LH CO].
  split; intros Hbm H.
  - destruct (propagate_path calcT vm l lo hi PT O lo b ltac:(lra) Hb) as [i [j [si [sj [Hi [Ci [Hj [Cj [U [D F]]]]]]]]]].
    rewrite F in H. injection H as H.
    assert (K : snd (y, theta_start vm si E lo b y) <= snd (run calcT vm (path l i j) E lo b u (y, theta_start vm si E lo b y))).
    { apply RUN. intros s Hs. apply path_in in Hs. split; auto. destruct (CO s Hs) as [C1 C2]. apply In_nth_error in Hs as [k Hk].
      destruct (dir_split l lo hi m sm k s PT O DO Hm Em Hk) as [[A B]|[A B]]; [left; auto|right; lra]. }
    rewrite H in K. cbn [snd] in K. pose proof (proj1 (C17_start_range vm si E lo b y)). lra.
  - destruct (propagate_path calcT vm l lo hi PT O hi b ltac:(lra) Hb) as [i [j [si [sj [Hi [Ci [Hj [Cj [U [D F]]]]]]]]]].
    rewrite F in H. injection H as H.
    assert (K : snd (run calcT vm (path l i j) E hi b u (y, theta_start vm si E hi b y)) <= snd (y, theta_start vm si E hi b y)).
    { apply RUN2. intros s Hs. apply path_in in Hs. split; auto. destruct (CO s Hs) as [C1 C2]. apply In_nth_error in Hs as [k Hk].
      destruct (dir_split l lo hi m sm k s PT O DO Hm Em Hk) as [[A B]|[A B]]; [right; lra|left; auto]. }
    rewrite H in K. cbn [snd] in K. pose proof (C17_start_range vm si E hi b y) as [S1 S2]. destruct (Rle_lt_dec hi b); lra.
Qed.
Example C19_case : exists y' th, propagate ex_T 2 ex_l 0 3 10 Neumann 0 0.5 true = Ret (y', th) /\ 0 <= th.
Proof.
  destruct (propagate_full ex_T 2 ex_l 0 3 ex_partition 0 0.5 ex_ordered' ltac:(lra) ltac:(lra) 10 Neumann true) as [th H].
  eexists _, th. split; [exact H|].
  eapply (C19_problem ex_T 2 ex_l 0 3 0 (mkSector 0 1 Dfwd [0])); try exact H; auto using ex_partition, ex_ordered'; try lra; try lia; cbn; try lra.
  - intros [|[|[|k]]] s K; cbn in K; try discriminate; injection K as <-; reflexivity.
  - intros s [<-|[<-|[]]]; cbn; lra.
Qed.

(** ** C20 *)
Lemma angle_polar s th y : 0 < s -> nonzero y -> is_angle s th y -> exists k, k <> 0 /\ s * y0 y = k * sin th /\ y1 y = k * cos th.
Proof.
  intros Hs Hn A. unfold is_angle in A. pose proof (sin2_cos2 th) as Q. unfold Rsqr in Q.
  exists (s * y0 y * sin th + y1 y * cos th).
  assert (P1 : s * y0 y = (s * y0 y * sin th + y1 y * cos th) * sin th).
  { transitivity (s * y0 y * (sin th * sin th) + y1 y * sin th * cos th); [rewrite <- A|ring].
    transitivity (s * y0 y * (sin th * sin th + cos th * cos th)); [rewrite Q; ring|ring]. }
  assert (P2 : y1 y = (s * y0 y * sin th + y1 y * cos th) * cos th).
  { transitivity (s * y0 y * cos th * sin th + y1 y * (cos th * cos th)); [rewrite A|ring].
    transitivity (y1 y * (sin th * sin th + cos th * cos th)); [rewrite Q; ring|ring]. }
  split; [|auto]. intros K. rewrite K in P1, P2. destruct Hn as [H|H]; [|lra].
  assert (s * y0 y = 0) by lra. apply Rmult_integral in H0. lra.
Qed.
Lemma matchingError_val calcT vm l m lo hi E left right u sm : partition lo hi l -> (forall s, In s l -> smin s <= smax s) -> vget l m = Ret sm ->
  exists tl tr, let L := runY calcT vm l E lo (smax sm) u left in let Rr := runY calcT vm (if Rleb hi (smax sm) then l else rev l) E hi (smax sm) u right in
   propagate calcT vm l lo hi E left lo (smax sm) u = Ret (L, tl) /\ propagate calcT vm l lo hi E right hi (smax sm) u = Ret (Rr, tr) /\
   matchingError calcT vm l m lo hi E left right u = Ret (y1 L * y0 Rr - y1 Rr * y0 L, e1 L * y0 Rr + y1 L * e0 Rr - (e1 Rr * y0 L + y1 Rr * e0 L), tl - tr).
Proof.
  intros PT O Hsm. destruct (chain_order l lo hi (proj2 PT) O) as [LH CO].
  destruct (vget_ret _ _ _ Hsm) as [Hm Hn]. apply nth_error_In in Hn. destruct (CO sm Hn) as [C1 C2]. pose proof (O sm Hn).
  destruct (propagate_full calcT vm l lo hi PT lo (smax sm) O ltac:(lra) ltac:(lra) E left u) as [tl EL].
  destruct (propagate_full calcT vm l lo hi PT hi (smax sm) O ltac:(lra) ltac:(lra) E right u) as [tr ER].
  assert (RR : Rleb lo (smax sm) = true) by (apply Rleb_true; lra). rewrite RR in EL.
  exists tl, tr. cbv zeta. split; [exact EL|]. split; [exact ER|].
  unfold matchingError. rewrite Hsm. cbn [bind]. rewrite EL. cbn [bind]. rewrite ER. cbn [bind]. reflexivity.
Qed.
Theorem C20_zero_iff_angle calcT vm l m lo hi E left right u err derr dth :
  partition lo hi l -> (forall s, In s l -> smin s <= smax s) -> (0 <= m < Z.of_nat (length l))%Z ->
  (forall s d, In s l -> det (calcT s E d u) <> 0) -> nonzero left -> nonzero right ->
  matchingError calcT vm l m lo hi E left right u = Ret (err, derr, dth) ->
  (err = 0 <-> multiple_of_pi dth).
Proof.
  intros PT O Hm D NL NR H. destruct (vget_in l m Hm) as [sm [Hsm _]].
  destruct (matchingError_val calcT vm l m lo hi E left right u sm PT O Hsm) as [tl [tr Q]]. cbv zeta in Q. destruct Q as [PL [PR ME]].
  rewrite ME in H. injection H as <- _ <-.
  apply C18_angle_of_solution in PL, PR.
  assert (NL' : nonzero (runY calcT vm l E lo (smax sm) u left)) by (apply runY_nonzero; auto).
  assert (NR' : nonzero (runY calcT vm (if Rleb hi (smax sm) then l else rev l) E hi (smax sm) u right)).
  { apply runY_nonzero; auto. intros s d Hs. apply D. destruct (Rleb _ _); auto. apply in_rev; auto. }
  set (L := runY _ _ _ _ _ _ _ left) in *. set (Rr := runY _ _ _ _ _ _ _ right) in *.
  pose proof (scaling_pos vm E) as SP. set (s := scaling vm E) in *.
  destruct (angle_polar s tl L SP NL' PL) as [k [Hk [A1 A2]]]. destruct (angle_polar s tr Rr SP NR' PR) as [k' [Hk' [B1 B2]]].
  assert (KEY : s * (y1 L * y0 Rr - y1 Rr * y0 L) = - (k * k' * sin (tl - tr))).
  { transitivity (y1 L * (s * y0 Rr) - y1 Rr * (s * y0 L)); [ring|]. rewrite A1, A2, B1, B2, sin_minus. ring. }
  split; intros Z.
  - apply sin_zero_multiple. rewrite Z, Rmult_0_r in KEY. assert (k * k' * sin (tl - tr) = 0) by lra. apply Rmult_integral in H as [H|H]; auto. apply Rmult_integral in H. tauto.
  - destruct Z as [n Z]. assert (S0 : sin (tl - tr) = 0) by (apply sin_eq_0_1; exists n; auto). rewrite S0, Rmult_0_r, Ropp_0 in KEY.
    apply Rmult_integral in KEY. lra.
Qed.
Theorem C20_derivative calcT vm l m lo hi (left right : R -> Y) u E :
  partition lo hi l -> (forall s, In s l -> smin s <= smax s) -> (0 <= m < Z.of_nat (length l))%Z ->
  (forall s d, In s l -> T_deriv (fun E => calcT s E d u) E) -> Y_deriv left E -> Y_deriv right E ->
  exists err derr dth : R -> R, (forall x, matchingError calcT vm l m lo hi x (left x) (right x) u = Ret (err x, derr x, dth x)) /\
    is_derive err E (derr E).
Proof.
  intros PT O Hm D DL DR. destruct (vget_in l m Hm) as [sm [Hsm _]].
  set (L := fun x => runY calcT vm l x lo (smax sm) u (left x)). set (Rr := fun x => runY calcT vm (if Rleb hi (smax sm) then l else rev l) x hi (smax sm) u (right x)).
  exists (fun x => y1 (L x) * y0 (Rr x) - y1 (Rr x) * y0 (L x)), (fun x => e1 (L x) * y0 (Rr x) + y1 (L x) * e0 (Rr x) - (e1 (Rr x) * y0 (L x) + y1 (Rr x) * e0 (L x))).
  exists (fun x => match matchingError calcT vm l m lo hi x (left x) (right x) u with Ret (_, _, t) => t | _ => 0 end).
  split.
  - intros x. destruct (matchingError_val calcT vm l m lo hi x (left x) (right x) u sm PT O Hsm) as [tl [tr Q]]. cbv zeta in Q. destruct Q as [_ [_ ME]].
    fold (L x) in ME. fold (Rr x) in ME. rewrite ME. reflexivity.
  - assert (DL' : Y_deriv L E) by (apply runY_deriv; auto).
    assert (DR' : Y_deriv Rr E). { apply runY_deriv; auto. intros s d Hs. apply D. destruct (Rleb _ _); auto. apply in_rev; auto. }
    destruct DL' as [L0 L1], DR' as [R0 R1]. evar_last; [apply is_derive_minusR; apply is_derive_multR; eassumption|]. cbn. ring.
Qed.
Example C20_case : exists err derr dth, matchingError ex_T 2 ex_l 0 0 3 10 Dirichlet Dirichlet true = Ret (err, derr, dth) /\ (err = 0 <-> multiple_of_pi dth).
Proof.
  destruct (matchingError_val ex_T 2 ex_l 0 0 3 10 Dirichlet Dirichlet true (mkSector 0 1 Dfwd [0]) ex_partition ex_ordered' eq_refl) as [tl [tr [_ [_ H]]]].
  eexists _, _, _. split; [exact H|]. eapply C20_zero_iff_angle; try exact H; auto using ex_partition, ex_ordered'; try apply ex_nonzero.
  - cbn; lia.
  - intros s d _. rewrite (proj1 (ex_det s 10 d true)). lra.
Qed.

(** ** C21 *)
Theorem C21_domain calcT vm l lo hi E y a b u : partition lo hi l -> (forall s, In s l -> smin s <= smax s) ->
  (~ (lo <= a <= hi /\ lo <= b <= hi) -> exists msg, propagate calcT vm l lo hi E y a b u = Throw msg) /\
  (lo <= a <= hi /\ lo <= b <= hi ->
   exists i j si sj th, nth_error l i = Some si /\ smin si <= a <= smax si /\ nth_error l j = Some sj /\ smin sj <= b <= smax sj /\
     (* the result is that of going through the consecutive sectors from i to j *)
     propagate calcT vm l lo hi E y a b u = Ret (fold_left (fun z s => fst (sprop calcT vm s E z a b u)) (path l i j) y, th)).
Proof.
  intros PT O. split.
  - intros H. unfold propagate. 
    assert (G : negb (dom_contains lo hi a) || negb (dom_contains lo hi b) = true).
    { apply orb_true_iff. rewrite !negb_true_iff. unfold dom_contains; simpl. rewrite !andb_false_iff, !Rleb_false. 
      destruct (Rle_lt_dec lo a); destruct (Rle_lt_dec a hi); destruct (Rle_lt_dec lo b); destruct (Rle_lt_dec b hi); tauto. }
    rewrite G. eauto.
  - intros [Ha Hb]. destruct (propagate_path calcT vm l lo hi PT O a b Ha Hb) as [i [j [si [sj [Hi [Ci [Hj [Cj [U [D F]]]]]]]]]].
    apply contains_R in Ci, Cj.
    exists i, j, si, sj. eexists. split; [auto|]. split; [auto|]. split; [auto|]. split; [auto|]. rewrite F. f_equal.
    rewrite (surjective_pairing (run _ _ _ _ _ _ _ _)). f_equal. rewrite run_fst. reflexivity.
Qed.
(** the visited sectors are consecutive: their number and positions *)
Theorem C21_path (l : list sec) i j k : (i < length l)%nat -> (j < length l)%nat ->
  ((i <= j)%nat -> (k <= j - i)%nat -> nth_error (path l i j) k = nth_error l (i + k)) /\
  ((j <= i)%nat -> (k <= i - j)%nat -> nth_error (path l i j) k = nth_error l (i - k)) /\
  length (path l i j) = (if (i <=? j)%nat then j - i + 1 else i - j + 1)%nat.
Proof.
  assert (F : forall (l : list sec) n k, (k < n)%nat -> nth_error (firstn n l) k = nth_error l k).
  { intros l' n. revert l'. induction n as [|n IH]; intros [|x l'] [|q] H; cbn; try lia; auto. apply IH. lia. }
  assert (RV : forall (q : list sec) k, (k < length q)%nat -> nth_error (rev q) k = nth_error q (length q - S k)).
  { induction q as [|x q IH]; intros k0 H; cbn in *; [lia|]. destruct (Nat.eq_dec k0 (length q)).
    - subst. rewrite nth_error_app2 by (rewrite rev_length; lia). rewrite rev_length, Nat.sub_diag. reflexivity.
    - rewrite nth_error_app1 by (rewrite rev_length; lia). rewrite IH by lia. replace (length q - k0)%nat with (S (length q - S k0)) by lia. reflexivity. }
  intros Hi Hj. unfold path. repeat split.
  - intros L K. destruct (Nat.leb_spec i j); [|lia]. rewrite F by lia. apply nth_skipn.
  - intros L K. destruct (Nat.leb_spec i j).
    + assert (i = j) by lia. subst j. rewrite F by lia. rewrite nth_skipn. f_equal. lia.
    + rewrite RV; rewrite firstn_length, skipn_length; [|lia]. rewrite F by lia. rewrite nth_skipn. f_equal. lia.
  - destruct (i <=? j)%nat eqn:LE; [apply Nat.leb_le in LE|apply Nat.leb_gt in LE]; rewrite ?rev_length, firstn_length, skipn_length; lia.
Qed.
(** doubles: the domain test that guards propagate also rejects NaN *)
Theorem C21_guard_double (lo hi a b : float) : is_nan a = true \/ is_nan b = true ->
  negb (dom_contains lo hi a) || negb (dom_contains lo hi b) = true.
Proof.
  intros H. assert (N : forall x y, is_nan x = true -> PrimFloat.leb y x = false).
  { intros x y Hx. rewrite FloatAxioms.leb_spec. unfold is_nan in Hx. rewrite FloatAxioms.eqb_spec in Hx. destruct (Prim2SF x) as [[]|[]| |[] p e]; try discriminate;
     try (exfalso; cbv in Hx; rewrite ?Z.compare_refl, ?Pos.compare_refl in Hx; discriminate).
    all: try (unfold SFleb, SFcompare; destruct (Prim2SF y) as [[]|[]| |[] ? ?]; reflexivity).
    all: exfalso; unfold SFeqb, SFcompare in Hx; rewrite Z.compare_refl, Pos.compare_cont_refl in Hx; discriminate. }
  destruct H as [H|H]; unfold dom_contains; simpl; rewrite (N _ lo H); cbn; auto using orb_true_r.
Qed.
Example C21_case : exists msg, propagate ex_T 2 ex_l 0 3 10 Neumann 1 3.5 true = Throw msg.
Proof. apply (C21_domain ex_T 2 ex_l 0 3 10 Neumann 1 3.5 true ex_partition ex_ordered'). lra. Qed.

(** ** C22 *)
Theorem C22_linear calcT vm l lo hi E a b u : partition lo hi l -> (forall s, In s l -> smin s <= smax s) ->
  lo <= a <= hi -> lo <= b <= hi ->
  exists f : Y -> Y, linearY f /\ forall y, exists th, propagate calcT vm l lo hi E y a b u = Ret (f y, th).
Proof.
  intros PT O Ha Hb. eexists. split; [|intros y; apply (propagate_full calcT vm l lo hi PT a b O Ha Hb)].
  apply runY_linear.
Qed.
Theorem C22_columns calcT vm l lo hi E ys a b u :
  (forall y, In y ys -> exists r, propagate calcT vm l lo hi E y a b u = Ret r) -> ys <> [] ->
  exists rs, propagateN calcT vm l lo hi E ys a b u = Ret (map fst rs, map snd rs) /\
    Forall2 (fun y r => propagate calcT vm l lo hi E y a b u = Ret r) ys rs.
Proof.
  intros H NE. destruct ys as [|y1 ys]; [congruence|].
  destruct (H y1 (or_introl eq_refl)) as [r1 H1]. unfold propagate, propagateN in *.
  destruct (_ || _)%bool; [discriminate|].
  destruct (find_sector (length l) l a) as [i|mm|mm|]; try discriminate. cbn [bind] in *.
  destruct (vget l i) as [s|mm|mm|]; try discriminate. cbn [bind] in *.
  rewrite prop_loop_visit in H1. destruct (visit (length l) l a b i) as [ss|mm|mm|] eqn:V; try discriminate. cbn [bind] in H1.
  set (g := fun y => run calcT vm ss E a b u (y, theta_start vm s E a b y)).
  exists (map g (y1 :: ys)). split.
  - pose proof (prop_loopN_cols calcT vm (length l) l E a b u i (map (fun y => (y, theta_start vm s E a b y)) (y1 :: ys))) as P.
    rewrite !(map_map (fun y => (y, theta_start vm s E a b y))) in P. cbn [fst snd] in P. rewrite map_id, V in P. cbn [bind] in P. etransitivity; [exact P|].
    rewrite !map_map. reflexivity.
  - clear H H1 NE. induction (y1 :: ys) as [|z zs IH]; constructor; auto. rewrite prop_loop_visit, V. reflexivity.
Qed.
Example C22_case : exists rs, propagateN ex_T 2 ex_l 0 3 10 [Dirichlet; Neumann] 0 3 true = Ret (map fst rs, map snd rs) /\ length rs = 2%nat.
Proof.
  destruct (C22_columns ex_T 2 ex_l 0 3 10 [Dirichlet; Neumann] 0 3 true) as [rs [A B]]; [|discriminate|].
  - intros y _. destruct (propagate_full ex_T 2 ex_l 0 3 ex_partition 0 3 ex_ordered' ltac:(lra) ltac:(lra) 10 y true) as [th H]. eauto.
  - exists rs. split; auto. inversion B as [|? ? ? ? _ B2]; subst. inversion B2 as [|? ? ? ? _ B3]; subst. inversion B3; subst. reflexivity.
Qed.

(** ** C23 *)
Theorem C23_propagate calcT vm l lo hi E y a b u c : c <> 0 ->
  propagate calcT vm l lo hi E (yscale c y) a b u = (do r <- propagate calcT vm l lo hi E y a b u; Ret (yscale c (fst r), snd r)).
Proof. apply propagate_scale. Qed.
Theorem C23_matching calcT vm l m lo hi E left right u c d : c <> 0 -> d <> 0 ->
  matchingError calcT vm l m lo hi E (yscale c left) (yscale d right) u =
  (do r <- matchingError calcT vm l m lo hi E left right u; Ret (c * d * fst (fst r), c * d * snd (fst r), snd r)).
Proof.
  intros Hc Hd. unfold matchingError. destruct (vget l m) as [sm|mm|mm|]; try reflexivity. cbn [bind].
  rewrite !propagate_scale by auto.
  destruct (propagate calcT vm l lo hi E left lo (smax sm) u) as [[L tl]|mm|mm|]; try reflexivity. cbn [bind fst snd].
  destruct (propagate calcT vm l lo hi E right hi (smax sm) u) as [[Rr tr]|mm|mm|]; try reflexivity. cbn [bind fst snd].
  unfold yscale; cbn [y0 y1 e0 e1]. f_equal. f_equal. f_equal; ring.
Qed.
Example C23_case : exists r, matchingError ex_T 2 ex_l 0 0 3 10 Dirichlet Neumann true = Ret r.
Proof.
  destruct (matchingError_val ex_T 2 ex_l 0 0 3 10 Dirichlet Neumann true (mkSector 0 1 Dfwd [0]) ex_partition ex_ordered' eq_refl) as [tl [tr [_ [_ H]]]]. eauto.
Qed.

(** ** C24: [ct h vs E delta use_h]: the step matrix depends on the sector through its width and its
    stored Legendre coefficients only (matslise/sector.cpp:49-97). *)
Theorem C24_mirror ct vm s E a b u y : directed s ->
  let calcT := fun s : sec => ct (sh s) (spay s) in
  fst (sprop calcT vm s E y a b u) =
  reverse (fst (sprop calcT vm (mkSector (- smax s) (- smin s) (if dir_eqb (sdir s) Dbwd then Dfwd else Dbwd) (spay s)) E (reverse y) (- a) (- b) u)).
Proof.
  intros Dd calcT. pose proof (yprop_mirror ct vm s E a b u y Dd) as H. unfold yprop in H. unfold calcT. rewrite H. unfold mirror.
  destruct Dd as [-> | ->]; reflexivity.
Qed.
Lemma dot_sum (ws fs : list R) : dot ws fs = sumR (map (fun p => fst p * snd p) (combine ws fs)).
Proof.
  unfold dot. destruct (combine ws fs) as [|[w f] r]; [reflexivity|]. cbn [map fst snd]. 
  change (sumR (w * f :: map (fun p => fst p * snd p) r)) with (w * f + sumR (map (fun p => fst p * snd p) r)). simpl smul.
  generalize (w * f). induction r as [|p r IH]; intros acc; cbn [fold_left map]; [cbn; ring|].
  rewrite IH. simpl. ring.
Qed.
Lemma sumR_rev (l : list R) : sumR (rev l) = sumR l.
Proof. induction l as [|x l IH]; [reflexivity|]. cbn [rev]. rewrite sumR_app, IH. unfold sumR; cbn. ring. Qed.
Lemma combine_rev {A B} (a : list A) (b : list B) : length a = length b -> combine (rev a) (rev b) = rev (combine a b).
Proof.
  revert b. induction a as [|x a IH]; intros [|y b] H; try discriminate; [reflexivity|]. cbn [rev combine]. injection H as H.
  rewrite <- IH by auto. assert (L : length (rev a) = length (rev b)) by (rewrite !rev_length; auto). clear -L.
  revert L. generalize (rev a) (rev b). induction l as [|p l IHl]; intros [|q l0] L; try discriminate; [reflexivity|]. cbn. f_equal. apply IHl. injection L; auto.
Qed.
Lemma dot_rev (ws fs : list R) : length ws = length fs -> dot ws (rev fs) = dot (rev ws) fs.
Proof.
  intros L. rewrite !dot_sum. rewrite <- (rev_involutive ws) at 1. rewrite combine_rev by (rewrite rev_length; auto). rewrite map_rev, sumR_rev. reflexivity.
Qed.
Lemma dot_opp (ws fs : list R) : dot (map Ropp ws) fs = - dot ws fs.
Proof.
  rewrite !dot_sum. revert fs. induction ws as [|w ws IH]; intros [|f fs]; cbn [map combine]; try (cbn; lra).
  change (- w * f + sumR (map (fun p => fst p * snd p) (combine (map Ropp ws) fs)) = - (w * f + sumR (map (fun p => fst p * snd p) (combine ws fs)))). rewrite IH. ring.
Qed.
Definition qeql (a b : list Q) : bool := (length a =? length b)%nat && forallb (fun p => Qeq_bool (fst p) (snd p)) (combine a b).
Lemma sofQ_eq (p q : Q) : Qeq_bool p q = true -> (sofQ p : R) = sofQ q.
Proof.
  intros H. apply Qeq_bool_eq in H. unfold Qeq in H. simpl. pose proof (IZR_lt 0 (Zpos (Qden p)) eq_refl). pose proof (IZR_lt 0 (Zpos (Qden q)) eq_refl).
  apply (f_equal IZR) in H. rewrite !mult_IZR in H. field_simplify_eq; lra.
Qed.
Lemma qeql_R (a b : list Q) : qeql a b = true -> map (sofQ : Q -> R) a = map sofQ b.
Proof.
  unfold qeql. rewrite andb_true_iff, Nat.eqb_eq. intros [L H]. revert b L H. induction a as [|x a IH]; intros [|y b] L H; try discriminate; [reflexivity|].
  cbn [combine forallb map] in *. apply andb_true_iff in H as [H1 H2]. f_equal; [apply sofQ_eq; exact H1|apply IH; auto].
Qed.
Lemma sofQ_opp (q : Q) : (sofQ (Qopp q) : R) = - sofQ q.
Proof. simpl. rewrite opp_IZR. unfold Rdiv. ring. Qed.
(** the 16-point tables are symmetric *)
Lemma nodes16_sym : qeql (rev (nodes 16)) (map Qopp (nodes 16)) = true.
Proof. vm_compute. reflexivity. Qed.
Lemma weights16_sym : forallb (fun i => qeql (rev (nth i (weights 16) [])) (if Nat.even i then nth i (weights 16) [] else map Qopp (nth i (weights 16) [])) && (length (nth i (weights 16) []) =? 16)%nat) (seq 0 16) = true.
Proof. vm_compute. reflexivity. Qed.
Lemma eval_points_mirror lo hi : eval_points 16 (- hi) (- lo) = map Ropp (rev (eval_points 16 lo hi)).
Proof.
  unfold eval_points. change (kof 16) with 16%nat. rewrite <- map_rev, map_map.
  pose proof (qeql_R _ _ nodes16_sym) as S.
  transitivity (map (fun x => - ((lo + hi) / 2 + x * leg_h lo hi)) (map sofQ (rev (nodes 16)))).
  - rewrite S, !map_map. apply map_ext. intros q. rewrite sofQ_opp. generalize (sofQ q : R). intros r. unfold leg_h, sadd, sdiv, ssub, sofZ, smul, Scalar_R. field.
  - rewrite map_map. apply map_ext. intros q. reflexivity.
Qed.
Lemma integrate_mirror (V : R -> R) lo hi i : (i < 16)%nat ->
  integrate false 16 (fun x => V (- x)) (- hi) (- lo) i = if Nat.even i then integrate false 16 V lo hi i else - integrate false 16 V lo hi i.
Proof.
  intros Hi. unfold integrate, leg_fs. rewrite eval_points_mirror. rewrite map_map.
  replace (map (fun x => V (- - x)) (rev (eval_points 16 lo hi))) with (rev (map V (eval_points 16 lo hi))).
  2:{ rewrite <- map_rev. apply map_ext. intros; rewrite Ropp_involutive; reflexivity. }
  pose proof weights16_sym as W. rewrite forallb_forall in W. specialize (W i). rewrite in_seq in W. specialize (W ltac:(lia)).
  apply andb_true_iff in W as [W1 W2]. apply Nat.eqb_eq in W2. apply qeql_R in W1.
  unfold weight_row. change (kof 16) with 16%nat.
  rewrite dot_rev. 2:{ rewrite !map_length. unfold eval_points. rewrite map_length, W2. reflexivity. }
  rewrite <- map_rev, W1. destruct (Nat.even i); [reflexivity|]. rewrite map_map.
  rewrite (map_ext _ _ sofQ_opp). rewrite <- (map_map sofQ Ropp). apply dot_opp.
Qed.
Lemma flip_odd_nth (vs : list R) o k d : nth k (flip_odd o vs) d = if Nat.even k then (if o then (if (k <? length vs)%nat then nth k vs d * -1 else d) else nth k vs d) else (if o then nth k vs d else (if (k <? length vs)%nat then nth k vs d * -1 else d)).
Proof.
  revert o k. induction vs as [|v vs IH]; intros o k.
  - cbn. destruct k, (Nat.even _), o; reflexivity.
  - destruct k as [|k]; [destruct o; reflexivity|]. cbn [flip_odd nth length]. rewrite IH. change (S k <? S (length vs))%nat with (k <? length vs)%nat.
    rewrite Nat.even_succ, <- Nat.negb_even. destruct (Nat.even k), o; reflexivity.
Qed.
Lemma flip_odd_length (vs : list R) o : length (flip_odd o vs) = length vs.
Proof. revert o. induction vs; intros; cbn; auto. Qed.
Lemma nth_map_seq {A} (f : nat -> A) n k d : (k < n)%nat -> nth k (map f (seq 0 n)) d = f k.
Proof.
  intros H. rewrite (nth_indep _ d (f 0%nat)) by (rewrite map_length, seq_length; auto). rewrite map_nth, seq_nth by auto. reflexivity.
Qed.
(** A backward sector stores the coefficients of the forward sector of the mirrored potential. *)
Theorem C24_stored_coefficients (V : R -> R) lo hi : lo < hi ->
  sector_vs V lo hi Dbwd = sector_vs (fun x => V (- x)) (- hi) (- lo) Dfwd /\
  sector_vs V lo hi Dfwd = sector_vs (fun x => V (- x)) (- hi) (- lo) Dbwd.
Proof.
  intros L.
  assert (G : forall V lo hi, lo < hi -> sector_vs V lo hi Dbwd = sector_vs (fun x => V (- x)) (- hi) (- lo) Dfwd).
  { clear. intros V lo hi L. unfold sector_vs.
    assert (N : forall k, (k < 16)%nat -> forall f a b, nth k (getCoefficients 16 f a b) 0 = integrate false 16 f a b k / leg_pow (leg_h a b) k).
    { intros k Hk f a b. unfold getCoefficients. rewrite nth_map_seq by auto. reflexivity. }
    apply (nth_ext _ _ 0 0).
    - rewrite flip_odd_length. unfold getCoefficients. rewrite !map_length. reflexivity.
    - intros k Hk. rewrite flip_odd_length in Hk. assert (Lc : length (getCoefficients 16 V lo hi) = 16%nat) by (unfold getCoefficients; rewrite map_length; reflexivity).
      rewrite Lc in Hk. rewrite flip_odd_nth, Lc. rewrite !N by auto. apply Nat.ltb_lt in Hk. rewrite Hk. apply Nat.ltb_lt in Hk.
      rewrite integrate_mirror by auto.
      replace (leg_h (- hi) (- lo)) with (leg_h lo hi) by (unfold leg_h; simpl; field).
      destruct (Nat.even k); [reflexivity|]. unfold Rdiv. ring. }
  split; [apply G; auto|].
  rewrite (G (fun x => V (- x)) (- hi) (- lo)) by lra. rewrite !Ropp_involutive. unfold sector_vs, getCoefficients. apply map_ext. intros i. f_equal.
  unfold integrate, leg_fs. f_equal. apply map_ext. intros. rewrite Ropp_involutive. reflexivity.
Qed.
(** Switching the direction forth and back restores the sector (for directions that are set). *)
Theorem C24_switch_twice (s : sec) d : directed s -> d = Dfwd \/ d = Dbwd -> setDirection (setDirection s d) (sdir s) = s.
Proof.
  intros Hs Hd.
  assert (FF : forall vs o, flip_odd (T := R) o (flip_odd o vs) = vs).
  { induction vs as [|v vs IH]; intros o; cbn; [reflexivity|]. rewrite IH. destruct o; f_equal. simpl. ring. }
  destruct s as [mn mx ds vs]. unfold setDirection, directed in *; cbn [sdir spay smin smax] in *.
  destruct Hs as [-> | ->], Hd as [-> | ->]; cbn [dir_eqb orb sdir spay smin smax]; rewrite ?FF; reflexivity.
Qed.
(** ... and setDirection gives the sector the constructor would build in that direction. *)
Theorem C24_set_direction (V : R -> R) lo hi d d' :
  setDirection (mkSector lo hi d (sector_vs V lo hi d)) d' = mkSector lo hi d' (sector_vs V lo hi d').
Proof.
  assert (FF : forall vs o, flip_odd (T := R) o (flip_odd o vs) = vs).
  { induction vs as [|v vs IH]; intros o; cbn; [reflexivity|]. rewrite IH. destruct o; f_equal. simpl. ring. }
  unfold setDirection, sector_vs. destruct d, d'; cbn [dir_eqb orb sdir spay smin smax]; rewrite ?FF; reflexivity.
Qed.
Example C24_case : directed (mkSector 1 3 Dbwd [2; 1]).
Proof. right. reflexivity. Qed.

Print Assumptions C12_propagate.
Print Assumptions C13_composition.
Print Assumptions C17_initial_angle.
Print Assumptions C18_angle_of_solution.
Print Assumptions C19_problem.
Print Assumptions C20_zero_iff_angle.
Print Assumptions C20_derivative.
Print Assumptions C21_domain.
Print Assumptions C21_guard_double.
Print Assumptions C22_columns.
Print Assumptions C23_matching.
Print Assumptions C24_stored_coefficients.
