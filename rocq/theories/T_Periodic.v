(** C42 - C45: periodic problems. *)
From Coquelicot Require Import Coquelicot.
From Coq Require Import String ZArith QArith Reals List Bool Lia Lra Sorted.
From Verif Require Import Base M_Sectors S_Sectors M_Core M_Search M_Eigen M_Periodic S_Core S_Search S_Eigen
  P_Lookup P_Prufer P_Core P_Core2 P_Eigen P_Eigen2 P_Eigen3 P_Eigen4 T_Core T_Eigen.
From Verif Require P_SearchR.
Import ListNotations.
Open Scope R_scope.

(** ** C42 *)
Lemma same_sign_R (a b : R) : same_sign a b = true <-> 0 < a * b.
Proof.
  unfold same_sign. change (slt a (sofZ 0)) with (Rltb a 0). change (slt b (sofZ 0)) with (Rltb b 0).
  change (slt (sofZ 0) a) with (Rltb 0 a). change (slt (sofZ 0) b) with (Rltb 0 b).
  rewrite orb_true_iff, !andb_true_iff, !Rltb_true. split; [nra|]. intros P.
  destruct (Rtotal_order a 0) as [L|[L|L]]; [left|exfalso; subst; nra|right]; split; auto; nra.
Qed.
Lemma same_sign_R0 (a b : R) : same_sign a b = false <-> a * b <= 0.
Proof.
  pose proof (same_sign_R a b) as [K1 K2]. destruct (same_sign a b); split; intros H; try discriminate; auto.
  - specialize (K1 eq_refl). lra.
  - apply Rnot_lt_le. intros P. apply K2 in P. discriminate.
Qed.

Section Bisection.
Variables (f : R -> R) (eps : R).
Hypothesis Heps : 0 < eps.
(** the stopping width at left end a *)
Definition width (a : R) : R := eps * Rmax 1 (Rabs a).
Lemma width_eps a : eps <= width a.
Proof using Heps. unfold width. pose proof (Rmax_l 1 (Rabs a)). nra. Qed.
Lemma stop_cond a d : slt (if slt (sabs a) (sofZ 1) then eps else smul eps (sabs a)) d = Rltb (width a) d.
Proof using Heps.
  unfold width. change (sabs a) with (Rabs a). change (slt (Rabs a) (sofZ 1)) with (Rltb (Rabs a) 1).
  destruct (Rltb (Rabs a) 1) eqn:L; [apply Rltb_true in L|apply Rltb_false in L].
  - rewrite Rmax_left by lra. rewrite Rmult_1_r. reflexivity.
  - rewrite Rmax_right by lra. reflexivity.
Qed.
Lemma bs_spec fuel : forall eMin eMax fMin, eMax - eMin <= eps * 2 ^ fuel ->
  exists r a b, binarySearch fuel eMin eMax f eps fMin = Ret r /\ r = (a + b) / 2 /\ b - a <= width a /\
    (eMin <= eMax -> eMin <= a <= b /\ b <= eMax) /\
    (a = eMin \/ 0 < fMin * f a) /\ (b = eMax \/ fMin * f b <= 0).
Proof using Heps.
  induction fuel as [|k IH]; intros eMin eMax fMin W.
  - cbn [binarySearch]. rewrite stop_cond. cbn [pow] in W. pose proof (width_eps eMin).
    destruct (Rltb (width eMin) (ssub eMax eMin)) eqn:L; [apply Rltb_true in L; unfold ssub in L; cbn in L; lra|].
    exists ((eMin + eMax) / 2), eMin, eMax. split; [reflexivity|]. split; auto. split; [lra|]. split; [lra|]. auto.
  - cbn [binarySearch]. rewrite stop_cond. change (ssub eMax eMin) with (eMax - eMin).
    destruct (Rltb (width eMin) (eMax - eMin)) eqn:L; [apply Rltb_true in L|apply Rltb_false in L].
    + change (sdiv (sadd eMin eMax) (sofZ 2)) with ((eMin + eMax) / 2). set (mid := (eMin + eMax) / 2).
      assert (W' : eMax - mid <= eps * 2 ^ k /\ mid - eMin <= eps * 2 ^ k) by (cbn [pow] in W; unfold mid; lra).
      pose proof (width_eps eMin).
      destruct (same_sign fMin (f mid)) eqn:SS; [apply same_sign_R in SS|apply same_sign_R0 in SS].
      * destruct (IH mid eMax (f mid) (proj1 W')) as (r & a & b & A & B & C & D & F & G). exists r, a, b. split; auto. split; auto. split; auto.
        split; [intros; unfold mid in *; lra|]. split.
        { right. destruct F as [-> |F]; nra. }
        { destruct G as [-> |G]; [left; auto|right]. nra. }
      * destruct (IH eMin mid fMin (proj2 W')) as (r & a & b & A & B & C & D & F & G). exists r, a, b. split; auto. split; auto. split; auto.
        split; [intros; unfold mid in *; lra|]. split; auto. right. destruct G as [-> |G]; auto.
    + exists ((eMin + eMax) / 2), eMin, eMax. split; [reflexivity|]. split; auto. split; [lra|]. split; [lra|]. auto.
Qed.
End Bisection.
Lemma pow_big (eps w : R) : 0 < eps -> exists n, forall k, (n <= k)%nat -> w <= eps * 2 ^ k.
Proof.
  intros He. destruct (Pow_x_infinity 2) with (b := w / eps) as [n Hn]; [rewrite Rabs_right; lra|]. exists n. intros k Hk.
  specialize (Hn k Hk). rewrite Rabs_right in Hn by (apply Rle_ge, pow_le; lra).
  apply (Rmult_ge_compat_l eps) in Hn; [|lra]. unfold Rdiv in Hn. replace (eps * (w * / eps)) with w in Hn by (field; lra). lra.
Qed.
(** Termination, for every function, start value and interval; with the bracketing information. *)
Theorem C42_terminates eMin eMax eps : 0 < eps -> exists n, forall f fMin fuel, (n <= fuel)%nat ->
  exists r a b, binarySearch fuel eMin eMax f eps fMin = Ret r /\ r = (a + b) / 2 /\ b - a <= eps * Rmax 1 (Rabs a) /\
    (eMin <= eMax -> eMin <= a <= b /\ b <= eMax) /\
    (a = eMin \/ 0 < fMin * f a) /\ (b = eMax \/ fMin * f b <= 0).
Proof.
  intros He. destruct (pow_big eps (eMax - eMin) He) as [n Hn]. exists n. intros f fMin fuel Hf. apply (bs_spec f eps He). auto.
Qed.
Lemma bs_mono {T} `{Scalar T} `{Conv T} (f : T -> T) eps fuel fuel' : (fuel <= fuel')%nat -> forall eMin eMax fMin r,
  binarySearch fuel eMin eMax f eps fMin = Ret r -> binarySearch fuel' eMin eMax f eps fMin = Ret r.
Proof.
  revert fuel'. induction fuel as [|k IH]; intros fuel' L eMin eMax fMin r B.
  - cbn [binarySearch] in B. destruct fuel'; cbn [binarySearch]; destruct (slt _ _); [discriminate|exact B|discriminate|exact B].
  - destruct fuel' as [|k']; [lia|]. cbn [binarySearch] in *. destruct (slt _ _); [|exact B].
    destruct (same_sign _ _); apply IH; auto; lia.
Qed.
(** Whenever the bisection returns and f changes sign: the result is the midpoint of a subinterval of at
    most the stopping width over which f changes sign. *)
Theorem C42_bracket f eps eMin eMax fuel r : 0 < eps -> eMin <= eMax -> f eMin * f eMax <= 0 ->
  binarySearch fuel eMin eMax f eps (f eMin) = Ret r ->
  exists a b, eMin <= a <= b /\ b <= eMax /\ r = (a + b) / 2 /\ b - a <= eps * Rmax 1 (Rabs a) /\ f a * f b <= 0.
Proof.
  intros He Hl Hs B. destruct (C42_terminates eMin eMax eps He) as [n Hn].
  destruct (Hn f (f eMin) (n + fuel)%nat ltac:(lia)) as (r' & a & b & A & C & D & F & G & K).
  rewrite (bs_mono f eps fuel (n + fuel) ltac:(lia) _ _ _ _ B) in A. injection A as <-. specialize (F Hl).
  exists a, b. split; [lra|]. split; [lra|]. split; auto. split; auto.
  destruct G as [-> |G], K as [-> |K]; auto; nra.
Qed.
(** The result always lies in the initial interval. *)
Theorem C42_inside f eps eMin eMax fuel fMin r : 0 < eps -> eMin <= eMax ->
  binarySearch fuel eMin eMax f eps fMin = Ret r -> eMin <= r <= eMax.
Proof.
  intros He Hl B. destruct (C42_terminates eMin eMax eps He) as [n Hn].
  destruct (Hn f fMin (n + fuel)%nat ltac:(lia)) as (r' & a & b & A & C & D & F & G & K).
  rewrite (bs_mono f eps fuel (n + fuel) ltac:(lia) _ _ _ _ B) in A. injection A as <-. specialize (F Hl). lra.
Qed.
Lemma ivt f a b : a <= b -> continuous_on f a b -> f a * f b <= 0 -> exists z, a <= z <= b /\ f z = 0.
Proof.
  intros L C P. destruct (Req_dec (f a) 0) as [Z|Z]; [exists a; split; [lra|auto]|].
  destruct (Req_dec (f b) 0) as [Z'|Z']; [exists b; split; [lra|auto]|].
  destruct (Rle_lt_or_eq_dec a b L) as [L'|Eq]; [|subst; nra].
  destruct (Rtotal_order (f a) 0) as [N|[N|N]]; [|lra|].
  - destruct (Ranalysis5.IVT_interv f a b) as [z [Hz Ez]]; auto; [nra|]. exists z. auto.
  - destruct (Ranalysis5.IVT_interv (fun x => - f x) a b) as [z [Hz Ez]]; auto; [|nra|nra|].
    + intros x Hx. apply continuity_pt_opp. apply C. auto.
    + exists z. split; auto. lra.
Qed.
(** For a continuous f with a sign change: within half the stopping width of a zero. *)
Theorem C42_zero f eps eMin eMax fuel r : 0 < eps -> eMin <= eMax -> continuous_on f eMin eMax -> f eMin * f eMax <= 0 ->
  binarySearch fuel eMin eMax f eps (f eMin) = Ret r ->
  exists z, eMin <= z <= eMax /\ f z = 0 /\ Rabs (r - z) <= eps / 2 * Rmax 1 (Rmax (Rabs eMin) (Rabs eMax)).
Proof.
  intros He Hl C Hs B. destruct (C42_bracket f eps eMin eMax fuel r He Hl Hs B) as (a & b & A1 & A2 & -> & W & P).
  destruct (ivt f a b) as (z & Hz & Ez); [lra| |exact P|]. { intros x Hx. apply C. lra. }
  exists z. split; [lra|]. split; auto.
  assert (Rabs ((a + b) / 2 - z) <= (b - a) / 2) by (apply Rabs_le; lra).
  assert (Rabs a <= Rmax (Rabs eMin) (Rabs eMax)) by (apply RmaxAbs; lra).
  assert (Rmax 1 (Rabs a) <= Rmax 1 (Rmax (Rabs eMin) (Rabs eMax))) by (apply Rle_max_compat_l; auto).
  assert (eps * Rmax 1 (Rabs a) <= eps * Rmax 1 (Rmax (Rabs eMin) (Rabs eMax))) by (apply Rmult_le_compat_l; lra). lra.
Qed.
Example C42_case : exists fuel r, binarySearch fuel 0 8 (fun x => x - 3) (1 / 100) (0 - 3) = Ret r /\ Rabs (r - 3) <= 4 / 100.
Proof.
  destruct (C42_terminates 0 8 (1 / 100) ltac:(lra)) as [n Hn].
  destruct (Hn (fun x => x - 3) (0 - 3) n (le_n n)) as (r & _ & _ & A & _). exists n, r. split; auto.
  destruct (C42_zero (fun x => x - 3) (1 / 100) 0 8 n r) as (z & _ & Z & W); auto; try lra.
  - intros x _. reg.
  - rewrite Rabs_R0, (Rabs_right 8), (Rmax_right 0 8), (Rmax_right 1 8) in W by lra. replace z with 3 in W by lra. lra.
Qed.

(** ** C43 *)
Definition idx {T} (p : Z * T * bool) : Z := fst (fst p).
Definition mult {T} (p : Z * T * bool) : Z := if snd p then 2%Z else 1%Z.
Section Results.
Context {T : Type} `{Scalar T} `{Conv T}.
Variables err derr tmin tmax : T -> T.
Variables (fuel : nat) (eMin eMax : T) (iMin iMax : Z).
(** one entry is acceptable *)
Definition entry_ok (p : Z * T * bool) : Prop :=
  (if snd p then iMin - 1 <= idx p else iMin <= idx p)%Z /\ (idx p < iMax)%Z /\ slt (snd (fst p)) eMin = false /\ sle eMax (snd (fst p)) = false.
Lemma add_ok i E d : Forall (fun p => entry_ok p /\ idx p = i /\ snd p = d) (addToResult eMin eMax iMin iMax i E d).
Proof using.
  unfold addToResult. destruct (_ || _) eqn:B; [constructor|]. rewrite !orb_false_iff in B. destruct B as [[[A B] C] D].
  constructor; [|constructor]. unfold entry_ok, idx; cbn [fst snd]. apply Z.leb_gt in B. destruct d; apply Z.ltb_ge in A; repeat split; auto; lia.
Qed.
Lemma add_len i E d : (length (addToResult eMin eMax iMin iMax i E d) <= 1)%nat.
Proof using. unfold addToResult. destruct (_ || _); cbn; lia. Qed.
Definition gap (p q : Z * T * bool) : Prop := (idx p + mult p <= idx q)%Z.
Lemma single (l : list (Z * T * bool)) : (length l <= 1)%nat -> StronglySorted gap l.
Proof using. destruct l as [|p [|q l]]; cbn; intros; [constructor|constructor; [constructor|constructor]|lia]. Qed.
Lemma sorted_app l1 l2 : StronglySorted gap l1 -> StronglySorted gap l2 -> (forall p q, In p l1 -> In q l2 -> gap p q) -> StronglySorted gap (l1 ++ l2).
Proof using.
  induction l1 as [|p l1 IH]; intros S1 S2 G; [exact S2|]. inversion S1 as [|? ? S1' F]; subst. cbn [app]. constructor.
  - apply IH; auto. intros; apply G; cbn; auto.
  - apply Forall_app. split; auto. apply Forall_forall. intros q I. apply G; cbn; auto.
Qed.
Lemma pairs_ok eps highest n : forall i low out, pairs_loop err derr tmin tmax fuel n eMin eMax iMin iMax eps highest i low = Ret out ->
  Forall (fun p => entry_ok p /\ (i - 1 <= idx p)%Z) out /\ StronglySorted gap out.
Proof using.
  induction n as [|n IH]; intros i low out; cbn [pairs_loop]; (destruct (i <=? iMax + 1)%Z; [|intros Q; injection Q as <-; split; constructor]); [discriminate|].
  destruct (stepping _ _ _ _ _) as [low1| | |]; try discriminate. cbn [bind].
  destruct (binarySearch _ low1 _ _ _ _) as [low2| | |]; try discriminate. cbn [bind].
  destruct (binarySearch _ low2 _ _ _ _) as [high| | |]; try discriminate. cbn [bind].
  destruct (eigenvaluePair _ _ _ _ _ _) as [p| | |]; try discriminate. cbn [bind].
  destruct (pairs_loop _ _ _ _ _ _ _ _ _ _ _ _ _ _) as [rest| | |] eqn:R; try discriminate. cbn [bind].
  intros Q; injection Q as <-. destruct (IH _ _ _ R) as [Fr Sr].
  assert (Fr' : forall q, In q rest -> entry_ok q /\ (i + 2 - 1 <= idx q)%Z) by (rewrite Forall_forall in Fr; exact Fr).
  set (out := if slt _ eps then _ else _).
  assert (O : Forall (fun p => entry_ok p /\ (i - 1 <= idx p)%Z /\ (idx p + mult p <= i + 1)%Z) out /\ StronglySorted gap out).
  { subst out. destruct (slt _ eps).
    - split; [|apply single, add_len]. eapply Forall_impl; [|apply add_ok]. cbn beta. intros q (A & B & C). split; auto. unfold mult. rewrite C. lia.
    - split.
      + apply Forall_app. split; (eapply Forall_impl; [|apply add_ok]); cbn beta; intros q (A & B & C); (split; auto); unfold mult; rewrite C; lia.
      + apply sorted_app; try apply single, add_len. intros a b Ia Ib.
        pose proof (proj1 (Forall_forall _ _) (add_ok (i - 1) (fst p) false) a Ia) as (_ & A1 & A2).
        pose proof (proj1 (Forall_forall _ _) (add_ok i (snd p) false) b Ib) as (_ & B1 & _). unfold gap, mult. rewrite A2. lia. }
  destruct O as [Fo So]. split.
  - apply Forall_app. split; [eapply Forall_impl; [|exact Fo]; cbn beta; tauto|].
    eapply Forall_impl; [|exact Fr]. cbn beta. intros q [A B]. split; auto. lia.
  - apply sorted_app; auto. intros a b Ia Ib. rewrite Forall_forall in Fo. destruct (Fo a Ia) as (_ & _ & A). destruct (Fr' b Ib) as [_ B]. unfold gap. lia.
Qed.
(** Whatever the functions (angles, determinant) do and whatever the number type: if the enumeration
    returns, every entry has an index below iMax, at least iMin (iMin-1 if double) and an energy for which
    neither E < eMin nor E >= eMax holds; entries are in strictly increasing index order, spaced by at
    least the multiplicity. *)
Theorem C43_results eps anti out : eigenpairsHelper err derr tmin tmax fuel anti eMin eMax iMin iMax eps = Ret out ->
  Forall entry_ok out /\ StronglySorted gap out.
Proof using.
  unfold eigenpairsHelper. destruct (stepping _ _ _ _ eMax) as [highest| | |]; try discriminate. cbn [bind].
  set (i := (_ + _)%Z). destruct (i =? 0)%Z eqn:I0.
  - apply Z.eqb_eq in I0. rewrite I0.
    destruct (stepping _ _ _ _ eMin) as [low| | |]; try discriminate. cbn [bind].
    destruct (binarySearch _ low highest _ _ _) as [high| | |]; try discriminate. cbn [bind].
    destruct (binarySearch _ low high _ _ _) as [E| | |]; try discriminate. cbn [bind].
    destruct (pairs_loop _ _ _ _ _ _ _ _ _ _ _ _ _ _) as [rest| | |] eqn:R; try discriminate. cbn [bind].
    intros Q; injection Q as <-. destruct (pairs_ok _ _ _ _ _ _ R) as [Fr Sr]. rewrite Forall_forall in Fr. split.
    + apply Forall_app. split; [eapply Forall_impl; [|apply add_ok]; cbn beta; tauto|]. apply Forall_forall. intros; apply Fr; auto.
    + apply sorted_app; auto; [apply single, add_len|]. intros a b Ia Ib.
      pose proof (proj1 (Forall_forall _ _) (add_ok 0 E false) a Ia) as (_ & A1 & A2). destruct (Fr b Ib) as [_ B]. unfold gap, mult. rewrite A2. lia.
  - intros R. destruct (pairs_ok _ _ _ _ _ _ R) as [Fr Sr]. split; auto. eapply Forall_impl; [|exact Fr]. cbn beta. tauto.
Qed.
End Results.
(** The two public queries. *)
Theorem C43_byIndex (err derr tmin tmax : R -> R) fuel anti iMin iMax out : periodic_byIndex err derr tmin tmax fuel anti iMin iMax = Ret out ->
  Forall (fun p : Z * R * bool => (if snd p then iMin - 1 <= idx p else iMin <= idx p)%Z /\ (idx p < iMax)%Z) out /\
  StronglySorted (fun p q : Z * R * bool => (idx p + mult p <= idx q)%Z) out.
Proof.
  unfold periodic_byIndex. destruct (doubling _ _ _) as [eMin| | |]; try discriminate. cbn [bind].
  destruct (doubling _ _ _) as [eMax| | |]; try discriminate. cbn [bind]. intros R. destruct (C43_results _ _ _ _ _ _ _ _ _ _ _ _ R) as [F S0].
  split; [|exact S0]. eapply Forall_impl; [|exact F]. unfold entry_ok. tauto.
Qed.
Theorem C43_range (err derr tmin tmax : R -> R) fuel anti eMin eMax out : periodic_eigenvalues err derr tmin tmax fuel anti eMin eMax = Ret out ->
  Forall (fun p : Z * R * bool => eMin <= snd (fst p) < eMax) out /\ StronglySorted (fun p q : Z * R * bool => (idx p + mult p <= idx q)%Z) out.
Proof.
  unfold periodic_eigenvalues. destruct (oint _) as [a| | |]; try discriminate. cbn [bind].
  destruct (oint _) as [b| | |]; try discriminate. cbn [bind]. intros R. destruct (C43_results _ _ _ _ _ _ _ _ _ _ _ _ R) as [F S0].
  split; [|exact S0]. eapply Forall_impl; [|exact F]. unfold entry_ok. intros p (_ & _ & A & B). apply Rltb_false in A. apply Rleb_false in B. lra.
Qed.

(** *** Completeness of the windows *)
(** The entries owed for the pair p of window i: one double entry if the two energies are closer than eps, else two simple
    ones, each if its energy is in [eMin, eMax) and its index in [iMin, iMax). *)
Definition reported (out : list (Z * R * bool)) (eMin eMax : R) (iMin iMax : Z) (eps : R) (i : Z) (p : R * R) : Prop :=
  (snd p - fst p < eps -> let E := (fst p + snd p) / 2 in eMin <= E < eMax -> (iMin <= i)%Z -> (i - 1 < iMax)%Z -> In ((i - 1)%Z, E, true) out) /\
  (eps <= snd p - fst p -> eMin <= fst p < eMax -> (iMin <= i - 1 < iMax)%Z -> In ((i - 1)%Z, fst p, false) out) /\
  (eps <= snd p - fst p -> eMin <= snd p < eMax -> (iMin <= i < iMax)%Z -> In (i, snd p, false) out).
(** The interval searched for window i holds (up to the stopping width) every energy at which both angle differences are
    strictly between i - 1 and i + 1. *)
Definition holds_window (tmin tmax : R -> R) (eps : R) (i : Z) (low high : R) : Prop :=
  forall E, IZR i - 1 < tmin E -> tmax E < IZR i + 1 -> low - eps * Rmax 1 (Rabs low) <= E <= high + eps * Rmax 1 (Rabs high).

Lemma width_swap eps a r : 0 < eps <= 1 -> Rabs (r - a) <= eps / 2 * Rmax 1 (Rabs a) -> Rmax 1 (Rabs a) <= 2 * Rmax 1 (Rabs r).
Proof.
  intros He Hr. pose proof (Rabs_triang (a - r) r) as T. replace (a - r + r) with a in T by ring. rewrite (Rabs_minus_sym a r) in T.
  pose proof (Rmax_l 1 (Rabs r)). pose proof (Rmax_r 1 (Rabs r)).
  apply Rmax_lub; [lra|]. destruct (Rle_dec (Rabs a) 1) as [L|L]; [lra|]. rewrite (Rmax_right 1 (Rabs a)) in Hr by lra.
  assert (eps / 2 * Rabs a <= 1 / 2 * Rabs a) by (apply Rmult_le_compat_r; [apply Rabs_pos|lra]). lra.
Qed.
Lemma bs_final f eps eMin eMax fuel fMin r : 0 < eps -> eMin <= eMax -> binarySearch fuel eMin eMax f eps fMin = Ret r ->
  exists a b, r = (a + b) / 2 /\ b - a <= eps * Rmax 1 (Rabs a) /\ eMin <= a <= b /\ b <= eMax /\ (a = eMin \/ 0 < fMin * f a) /\ (b = eMax \/ fMin * f b <= 0).
Proof.
  intros He Hl B. destruct (C42_terminates eMin eMax eps He) as [n Hn].
  destruct (Hn f fMin (n + fuel)%nat ltac:(lia)) as (r' & a & b & A & C & D & F & G & K).
  rewrite (bs_mono f eps fuel (n + fuel) ltac:(lia) _ _ _ _ B) in A. injection A as <-. specialize (F Hl). exists a, b. tauto.
Qed.
Lemma stepping_down n (cond : R -> bool) : forall (step x r : R), stepping n ssub cond step x = Ret r -> 0 <= step -> cond r = false /\ r <= x.
Proof.
  induction n as [|n IH]; intros step x r; cbn [stepping]; destruct (cond x) eqn:E; intros Q Hs; try discriminate.
  - injection Q as <-. split; [auto|lra]. - apply IH in Q; [|cbn; lra]. split; [tauto|]. destruct Q as [_ Q]. cbn in Q. lra.
  - injection Q as <-. split; [auto|lra].
Qed.
Lemma stepping_up n (cond : R -> bool) : forall (step x r : R), stepping n sadd cond step x = Ret r -> 0 <= step -> cond r = false /\ x <= r.
Proof.
  induction n as [|n IH]; intros step x r; cbn [stepping]; destruct (cond x) eqn:E; intros Q Hs; try discriminate.
  - injection Q as <-. split; [auto|lra]. - apply IH in Q; [|cbn; lra]. split; [tauto|]. destruct Q as [_ Q]. cbn in Q. lra.
  - injection Q as <-. split; [auto|lra].
Qed.
Lemma add_in eMin eMax iMin iMax i (E : R) (d : bool) : (if d then iMin <= i + 1 else iMin <= i)%Z -> (i < iMax)%Z -> eMin <= E < eMax ->
  In (i, E, d) (addToResult eMin eMax iMin iMax i E d).
Proof.
  intros A B C. unfold addToResult. destruct (_ || _) eqn:K; [|left; reflexivity]. exfalso.
  rewrite !orb_true_iff in K. destruct K as [[[K|K]|K]|K].
  - destruct d; apply Z.ltb_lt in K; lia.
  - apply Z.leb_le in K. lia.
  - apply Rltb_true in K. lra.
  - apply Rleb_true in K. lra.
Qed.

Section Windows.
Variables err derr tmin tmax : R -> R.
Hypothesis Rmin_ : forall a b, rises_through_integers tmin a b.
Hypothesis Rmax_ : forall a b, rises_through_integers tmax a b.
Variables (fuel : nat) (eMin eMax : R) (iMin iMax : Z) (eps : R).
Hypothesis Heps : 0 < eps <= 1.
Lemma below F k E E' : (forall a b, rises_through_integers F a b) -> F E <= IZR k -> IZR k < F E' -> E < E'.
Proof using.
  intros HR H1 H2. destruct (Rlt_le_dec E E') as [L|[L|L]]; auto; exfalso.
  - pose proof (HR E' E k E' E (Rle_refl _) L (Rle_refl _) ltac:(lra)). lra.
  - subst. lra.
Qed.
Lemma below' F k E E' : (forall a b, rises_through_integers F a b) -> F E < IZR k -> IZR k <= F E' -> E < E'.
Proof using.
  intros HR H1 H2. destruct (Rlt_le_dec E E') as [L|[L|L]]; auto; exfalso.
  - pose proof (HR E' E k E' E (Rle_refl _) L (Rle_refl _) H2). lra.
  - subst. lra.
Qed.
(** one window *)
Lemma window_ok i low0 low1 low high highest n : low0 <= highest -> IZR i + 1 <= tmax highest ->
  stepping n ssub (fun E => slt (sofZ 0) (findLow tmin i E)) (sofZ 1) low0 = Ret low1 ->
  binarySearch fuel low1 highest (findLow tmin i) eps (findLow tmin i low1) = Ret low ->
  binarySearch fuel low highest (findHigh tmax i) eps (findHigh tmax i low) = Ret high ->
  low <= high <= highest /\ holds_window tmin tmax eps i low high.
Proof using Rmin_ Rmax_ Heps.
  intros H0 Hh S1 B1 B2. apply stepping_down in S1; [|cbn; lra]. destruct S1 as [C1 L1]. apply Rltb_false in C1.
  change (tmin low1 - IZR i + 1 <= 0) in C1.
  destruct (bs_final _ eps low1 highest _ _ _ (proj1 Heps) ltac:(lra) B1) as (a & b & El & W & Ia & Ib & Ga & Gb).
  assert (Il : low1 <= low <= highest) by lra.
  destruct (bs_final _ eps low highest _ _ _ (proj1 Heps) ltac:(lra) B2) as (a' & b' & Eh & W' & Ia' & Ib' & Ga' & Gb').
  split; [lra|]. intros E T1 T2.
  assert (Ca : tmin a <= IZR (i - 1)).
  { rewrite minus_IZR. destruct Ga as [-> |Ga]; [lra|]. unfold findLow in Ga. change (0 < (tmin low1 - IZR i + 1) * (tmin a - IZR i + 1)) in Ga. nra. }
  assert (a < E) as LE. { apply (below tmin (i - 1)); auto. rewrite minus_IZR. lra. }
  assert (Ra : Rabs (low - a) <= eps / 2 * Rmax 1 (Rabs a)) by (apply Rabs_le; lra).
  pose proof (width_swap eps a low Heps Ra) as Sa. apply Rabs_le_between in Ra.
  assert (eps / 2 * Rmax 1 (Rabs a) <= eps * Rmax 1 (Rabs low)). { apply Rle_trans with (eps / 2 * (2 * Rmax 1 (Rabs low))); [apply Rmult_le_compat_l; lra|lra]. }
  split; [lra|].
  assert (Rb : Rabs (high - a') <= eps / 2 * Rmax 1 (Rabs a')) by (apply Rabs_le; lra).
  pose proof (width_swap eps a' high Heps Rb) as Sb. 
  assert (eps / 2 * Rmax 1 (Rabs a') <= eps * Rmax 1 (Rabs high)). { apply Rle_trans with (eps / 2 * (2 * Rmax 1 (Rabs high))); [apply Rmult_le_compat_l; lra|lra]. }
  destruct (Rle_lt_dec 0 (findHigh tmax i low)) as [P|P].
  - unfold findHigh in P. change (0 <= tmax low - IZR i - 1) in P.
    assert (E < low). { apply (below' tmax (i + 1)); auto; rewrite plus_IZR; lra. }
    pose proof (Rmax_l 1 (Rabs high)). assert (0 < eps * Rmax 1 (Rabs high)) by (apply Rmult_lt_0_compat; lra). lra.
  - assert (IZR (i + 1) <= tmax b') as Pb.
    { rewrite plus_IZR. destruct Gb' as [-> |Gb']; [lra|]. unfold findHigh in Gb', P. change ((tmax low - IZR i - 1) * (tmax b' - IZR i - 1) <= 0) in Gb'. change (tmax low - IZR i - 1 < 0) in P. nra. }
    assert (E < b'). { apply (below' tmax (i + 1)); auto; rewrite plus_IZR; lra. } lra.
Qed.
Lemma windows_loop highest n : IZR iMax + 2 <= tmax highest -> forall i low0 out, low0 <= highest ->
  pairs_loop err derr tmin tmax fuel n eMin eMax iMin iMax eps highest i low0 = Ret out ->
  forall j, (i <= j <= iMax + 1)%Z -> (Z.even (j - i) = true) ->
  exists low high p, low <= high /\ eigenvaluePair err derr fuel low high eps = Ret p /\
    reported out eMin eMax iMin iMax eps j p /\ holds_window tmin tmax eps j low high.
Proof using Rmin_ Rmax_ Heps.
  intros Hh. induction n as [|n IH]; intros i low0 out L0; cbn [pairs_loop]; destruct (i <=? iMax + 1)%Z eqn:Li;
    try (apply Z.leb_gt in Li; intros; lia); [discriminate|].
  apply Z.leb_le in Li.
  destruct (stepping _ _ _ _ _) as [low1| | |] eqn:S1; try discriminate. cbn [bind].
  destruct (binarySearch _ low1 _ _ _ _) as [low2| | |] eqn:B1; try discriminate. cbn [bind].
  destruct (binarySearch _ low2 _ _ _ _) as [high| | |] eqn:B2; try discriminate. cbn [bind].
  destruct (eigenvaluePair _ _ _ _ _ _) as [p| | |] eqn:P; try discriminate. cbn [bind].
  destruct (pairs_loop _ _ _ _ _ _ _ _ _ _ _ _ _ _) as [rest| | |] eqn:Q; try discriminate. cbn [bind].
  intros E; injection E as <-. intros j Hj Ev.
  assert (Hi : IZR i + 1 <= tmax highest). { apply IZR_le in Li. rewrite plus_IZR in Li. lra. }
  destruct (window_ok i low0 low1 low2 high highest fuel L0 Hi S1 B1 B2) as [Lh Hw].
  destruct (Z.eq_dec j i) as [-> |Nj].
  - exists low2, high, p. split; [lra|]. split; [exact P|]. split; [|exact Hw].
    change (slt (ssub (snd p) (fst p)) eps) with (Rltb (snd p - fst p) eps).
    split; [|split]; intros D.
    + rewrite (proj2 (Rltb_true _ _) D). cbv zeta. intros R1 R2 R3. apply in_or_app. left.
      apply (add_in eMin eMax iMin iMax (i - 1) ((fst p + snd p) / 2) true); auto. lia.
    + rewrite (proj2 (Rltb_false _ _) D). intros R1 R2. apply in_or_app. left. apply in_or_app. left. apply add_in; auto; lia.
    + rewrite (proj2 (Rltb_false _ _) D). intros R1 R2. apply in_or_app. left. apply in_or_app. right. apply add_in; auto; lia.
  - assert (i + 2 <= j)%Z. { destruct (Z.eq_dec j (i + 1)) as [-> |]; [|lia]. replace (i + 1 - i)%Z with 1%Z in Ev by lia. discriminate. }
    destruct (IH (i + 2)%Z low2 rest ltac:(lra) Q j ltac:(lia)) as (lo & hi & p' & A & B & C & D).
    { replace (j - (i + 2))%Z with (j - i - 2)%Z by lia. rewrite Z.even_sub, Ev. reflexivity. }
    exists lo, hi, p'. split; [exact A|]. split; [exact B|]. split; [|exact D]. destruct C as (C1 & C2 & C3). split; [|split]; intros; apply in_or_app; right; auto.
Qed.
(** The first index enumerated, and the step. *)
Definition first_window (anti : bool) : Z := (iMin - Z.rem iMin 2 + (if anti then 1 else 0))%Z.
Theorem C43_windows anti out : eMin <= eMax -> eigenpairsHelper err derr tmin tmax fuel anti eMin eMax iMin iMax eps = Ret out ->
  forall j, (1 <= j)%Z -> (first_window anti <= j <= iMax + 1)%Z -> Z.even (j - first_window anti) = true ->
  exists low high p, low <= high /\ eigenvaluePair err derr fuel low high eps = Ret p /\
    reported out eMin eMax iMin iMax eps j p /\ holds_window tmin tmax eps j low high.
Proof using Rmin_ Rmax_ Heps.
  intros HE H j Hj1 Hj Ev. unfold eigenpairsHelper in H. cbv zeta in H. fold (first_window anti) in H.
  destruct (stepping _ _ _ _ eMax) as [highest| | |] eqn:S0; try discriminate. cbn [bind] in H.
  apply stepping_up in S0; [|cbn; lra]. destruct S0 as [C0 L0]. apply Rltb_false in C0. unfold findHigh in C0. change (0 <= tmax highest - IZR (iMax + 1) - 1) in C0. rewrite plus_IZR in C0.
  destruct (first_window anti =? 0)%Z eqn:I0.
  - apply Z.eqb_eq in I0. rewrite I0 in *.
    destruct (stepping _ _ _ _ eMin) as [low| | |] eqn:S1; try discriminate. cbn [bind] in H. apply stepping_down in S1; [|cbn; lra].
    destruct (binarySearch _ low highest _ _ _) as [high| | |] eqn:B1; try discriminate. cbn [bind] in H.
    destruct (binarySearch _ low high _ _ _) as [E| | |] eqn:B2; try discriminate. cbn [bind] in H.
    destruct (pairs_loop _ _ _ _ _ _ _ _ _ _ _ _ _ _) as [rest| | |] eqn:Q; try discriminate. cbn [bind] in H. injection H as <-.
    assert (2 <= j)%Z. { destruct (Z.eq_dec j 1) as [-> |]; [discriminate|lia]. }
    destruct (windows_loop highest fuel ltac:(lra) (0 + 2)%Z low rest ltac:(lra) Q j ltac:(lia)) as (lo & hi & p' & A & B & C & D).
    { rewrite Z.sub_0_r in Ev. rewrite Z.even_sub, Ev. reflexivity. }
    exists lo, hi, p'. split; [exact A|]. split; [exact B|]. split; [|exact D]. destruct C as (C1 & C2 & C3). split; [|split]; intros; apply in_or_app; right; auto.
  - apply (windows_loop highest fuel ltac:(lra) (first_window anti) eMin out ltac:(lra) H j); auto.
Qed.
End Windows.
(** The first eigenvalue (index 0, periodic case): searched as a zero of the determinant between an energy not above eMin and
    one not below the energies at which the larger angle difference is below 1. *)
Theorem C43_ground err derr tmin tmax fuel eMin eMax iMin iMax eps out : (forall a b, rises_through_integers tmax a b) -> 0 < eps <= 1 -> eMin <= eMax -> (0 <= iMax)%Z ->
  first_window iMin false = 0%Z -> eigenpairsHelper err derr tmin tmax fuel false eMin eMax iMin iMax eps = Ret out ->
  exists low high E, low <= eMin /\ low <= high /\ binarySearch fuel low high err eps (err low) = Ret E /\
    (eMin <= E < eMax -> (iMin <= 0 < iMax)%Z -> In (0%Z, E, false) out) /\
    forall E', tmax E' < 1 -> E' <= high + eps * Rmax 1 (Rabs high).
Proof.
  intros Rmax_ Heps HE HiM I0 H. unfold eigenpairsHelper in H. cbv zeta in H. change (iMin - Z.rem iMin 2 + 0)%Z with (first_window iMin false) in H. rewrite I0 in H. change (0 =? 0)%Z with true in H. cbv iota in H.
  destruct (stepping _ _ _ _ eMax) as [highest| | |] eqn:S0; try discriminate. cbn [bind] in H.
  apply stepping_up in S0; [|cbn; lra]. destruct S0 as [C0 L0]. apply Rltb_false in C0. unfold findHigh in C0. change (0 <= tmax highest - IZR (iMax + 1) - 1) in C0. rewrite plus_IZR in C0.
  apply IZR_le in HiM.
  destruct (stepping _ _ _ _ eMin) as [low| | |] eqn:S1; try discriminate. cbn [bind] in H. apply stepping_down in S1; [|cbn; lra]. destruct S1 as [C1 L1].
  apply Rltb_false in C1. unfold findHigh in C1. change (tmax low - 0 - 1 <= 0) in C1.
  destruct (binarySearch _ low highest _ _ _) as [high| | |] eqn:B1; try discriminate. cbn [bind] in H.
  destruct (binarySearch _ low high _ _ _) as [E| | |] eqn:B2; try discriminate. cbn [bind] in H.
  destruct (pairs_loop _ _ _ _ _ _ _ _ _ _ _ _ _ _) as [rest| | |] eqn:Q; try discriminate. cbn [bind] in H. injection H as <-.
  destruct (bs_final _ eps low highest _ _ _ (proj1 Heps) ltac:(lra) B1) as (a' & b' & Eh & W' & Ia' & Ib' & Ga' & Gb').
  exists low, high, E. split; [lra|]. split; [lra|]. split; [exact B2|]. split.
  { intros R1 R2. apply in_or_app. left. apply add_in; auto; lia. }
  intros E' T.
  assert (Rb : Rabs (high - a') <= eps / 2 * Rmax 1 (Rabs a')) by (apply Rabs_le; lra).
  pose proof (width_swap eps a' high Heps Rb) as Sb. 
  assert (eps / 2 * Rmax 1 (Rabs a') <= eps * Rmax 1 (Rabs high)). { apply Rle_trans with (eps / 2 * (2 * Rmax 1 (Rabs high))); [apply Rmult_le_compat_l; lra|lra]. }
  destruct (Rle_lt_dec 0 (findHigh tmax 0 low)) as [P|P]; unfold findHigh in P.
  - change (0 <= tmax low - 0 - 1) in P. assert (E' < low). { apply (below' tmax 1); auto; lra. }
    pose proof (Rmax_l 1 (Rabs high)). assert (0 < eps * Rmax 1 (Rabs high)) by (apply Rmult_lt_0_compat; lra). lra.
  - change (tmax low - 0 - 1 < 0) in P. assert (1 <= tmax b') as Pb.
    { destruct Gb' as [-> |Gb']; [lra|]. unfold findHigh in Gb'. change ((tmax low - 0 - 1) * (tmax b' - 0 - 1) <= 0) in Gb'. nra. }
    assert (E' < b'). { apply (below' tmax 1); auto; lra. } lra.
Qed.
Lemma trunc_spec x a : oint (itrunc x) = Ret a -> (0 <= x -> IZR a <= x < IZR a + 1) /\ (-1 < x < 0 -> a = 0%Z).
Proof.
  unfold itrunc. change (slt x (sofZ 0)) with (Rltb x 0). destruct (Rltb x 0) eqn:L.
  - apply Rltb_true in L. intros H. split; [lra|]. intros X. unfold iceil, Conv_R, toint in H. destruct (int_ok _); [|discriminate]. injection H as <-. apply P_SearchR.ceil_unique. cbn. lra.
  - apply Rltb_false in L. intros H. split; [|lra]. intros _. unfold ifloor, Conv_R, toint in H. destruct (int_ok _); [|discriminate]. injection H as <-.
    unfold Rfloor. destruct (base_Int_part x). lra.
Qed.
(** The range query: every energy E of the range at which both angle differences lie between n - 1 and n + 1 (n >= 1 of the right
    parity) belongs to a window that is searched, and the energies found there are listed whenever they are in the range; the
    second one provided that the larger angle difference reaches n before the end of the range. *)
Theorem C43_range_windows err derr tmin tmax fuel (anti : bool) eMin eMax out n E :
  (forall a b, rises_through_integers tmin a b) -> (forall a b, rises_through_integers tmax a b) -> (forall E, tmin E <= tmax E) -> -1 < tmin eMin ->
  periodic_eigenvalues err derr tmin tmax fuel anti eMin eMax = Ret out ->
  (1 <= n)%Z -> Z.odd n = anti -> eMin <= E <= eMax -> IZR n - 1 < tmin E -> tmax E < IZR n + 1 ->
  exists low high p, low <= high /\ eigenvaluePair err derr fuel low high (1 / 100000000) = Ret p /\
    low - 1 / 100000000 * Rmax 1 (Rabs low) <= E <= high + 1 / 100000000 * Rmax 1 (Rabs high) /\
    (snd p - fst p < 1 / 100000000 -> eMin <= (fst p + snd p) / 2 < eMax -> In ((n - 1)%Z, (fst p + snd p) / 2, true) out) /\
    (1 / 100000000 <= snd p - fst p -> eMin <= fst p < eMax -> In ((n - 1)%Z, fst p, false) out) /\
    (1 / 100000000 <= snd p - fst p -> eMin <= snd p < eMax -> IZR n <= tmax eMax -> In (n, snd p, false) out).
Proof.
  intros Rmin_ Rmax_ Hle Hlo H Hn Hodd HE T1 T2. unfold periodic_eigenvalues in H.
  destruct (oint (itrunc (tmin eMin))) as [a| | |] eqn:Ea; try discriminate. cbn [bind] in H.
  destruct (oint (itrunc (tmax eMax))) as [b| | |] eqn:Eb; try discriminate. cbn [bind] in H.
  apply trunc_spec in Ea. apply trunc_spec in Eb. destruct Ea as [Ea1 Ea2], Eb as [Eb1 Eb2].
  assert (Hnr : 1 <= IZR n) by (apply (IZR_le 1); lia).
  assert (A : (-1 <= a - 1)%Z /\ (a <= n)%Z).
  { destruct (Rlt_le_dec (tmin eMin) 0) as [L|L]; [rewrite Ea2 by lra; lia|]. specialize (Ea1 L).
    assert (-1 < a)%Z by (apply lt_IZR; cbn; lra). split; [lia|].
    assert (tmin eMin < IZR (n + 1)).
    { destruct (Rlt_le_dec (tmin eMin) (IZR (n + 1))) as [?|K]; auto. exfalso. destruct (proj1 HE) as [Lt| ->].
      - pose proof (Rmin_ eMin E (n + 1)%Z eMin E (Rle_refl _) Lt (Rle_refl _) K). rewrite plus_IZR in *. specialize (Hle E). lra.
      - rewrite plus_IZR in *. specialize (Hle E). lra. }
    assert (a < n + 1)%Z by (apply lt_IZR; lra). lia. }
  assert (Bm : IZR (n - 1) < tmax eMax).
  { rewrite minus_IZR. specialize (Hle E). destruct (proj2 HE) as [Lt| <-]; [|lra].
    pose proof (Rmax_ E eMax (n - 1)%Z E eMax (Rle_refl _) Lt (Rle_refl _)) as K. rewrite minus_IZR in K. apply K. lra. }
  assert (B : (n - 1 <= b)%Z /\ (IZR n <= tmax eMax -> (n <= b)%Z)).
  { rewrite minus_IZR in Bm. specialize (Eb1 ltac:(lra)). split; [|intros K; assert (n < b + 1)%Z by (apply lt_IZR; rewrite plus_IZR; lra); lia].
    assert (n - 1 < b + 1)%Z by (apply lt_IZR; rewrite plus_IZR, minus_IZR; lra). lia. }
  assert (Q : (a - 1 = 2 * Z.quot (a - 1) 2 + Z.rem (a - 1) 2)%Z) by apply Z.quot_rem'.
  assert (F : (first_window (a - 1) anti <= n)%Z).
  { unfold first_window. destruct A as [A1 A2]. destruct (Z.eq_dec a 0) as [-> |Na]; [cbn; destruct anti; lia|].
    pose proof (Z.rem_nonneg (a - 1) 2 ltac:(lia) ltac:(lia)). destruct anti; lia. }
  assert (Ev : Z.even (n - first_window (a - 1) anti) = true).
  { unfold first_window. replace (a - 1 - Z.rem (a - 1) 2)%Z with (2 * Z.quot (a - 1) 2)%Z by lia.
    rewrite Z.even_sub, Z.even_add, Z.even_mul. change (Z.even 2) with true. cbn [orb]. rewrite <- Z.negb_odd, Hodd. destruct anti; reflexivity. }
  assert (e8 : 0 < (eps8 : R) <= 1) by (unfold eps8; cbn; lra).
  destruct (C43_windows err derr tmin tmax Rmin_ Rmax_ fuel eMin eMax (a - 1) (b + 1) eps8 e8 anti out ltac:(lra) H n Hn ltac:(lia) Ev)
    as (low & high & p & L & P & (R1 & R2 & R3) & W).
  change (eps8 : R) with (1 / 100000000) in *.
  exists low, high, p. split; [exact L|]. split; [exact P|]. split; [apply W; lra|].
  split; [|split].
  - intros D I. apply R1; auto; lia.
  - intros D I. apply R2; auto; lia.
  - intros D I K. apply R3; auto. split; [lia|]. destruct B as [_ B]. specialize (B K). lia.
Qed.
(** Case: both angle differences E / 10, a determinant with zeros 15 and 25 (window n = 2) *)
Example C43_windows_case : (forall a b, rises_through_integers (fun E => E / 10) a b) /\ Z.odd 2 = false /\ IZR 2 - 1 < 20 / 10 < IZR 2 + 1.
Proof. split; [|split; [reflexivity|lra]]. intros a b k x y _ L _ K. lra. Qed.

(** *** Termination *)
(** For all large enough fuel the same result. *)
Definition settles {A} (g : nat -> res A) (P : A -> Prop) : Prop := exists n r, P r /\ forall k, (n <= k)%nat -> g k = Ret r.
Lemma settles_bind {A B} (g : nat -> res A) (h : nat -> A -> res B) P Q :
  settles g P -> (forall r, P r -> settles (fun k => h k r) Q) -> settles (fun k => do r <- g k; h k r) Q.
Proof.
  intros (n & r & Hp & G) Hh. destruct (Hh r Hp) as (n' & r' & Hq & G'). exists (max n n'), r'. split; auto. intros k Hk.
  rewrite G by lia. cbn [bind]. apply G'. lia.
Qed.
Lemma settles_ret {A} (r : A) (P : A -> Prop) : P r -> settles (fun _ => Ret r) P.
Proof. intros. exists 0%nat, r. auto. Qed.
Lemma settles_bs eMin eMax f eps fMin : 0 < eps -> settles (fun k => binarySearch k eMin eMax f eps fMin) (fun r => eMin <= eMax -> eMin <= r <= eMax).
Proof.
  intros He. destruct (C42_terminates eMin eMax eps He) as [n Hn]. destruct (Hn f fMin n (le_n n)) as (r & a & b & A & B & _ & D & _).
  exists n, r. split; [intros L; specialize (D L); lra|]. intros k Hk. apply (bs_mono f eps n k Hk _ _ _ _ A).
Qed.
Lemma stepping_mono {T} `{Scalar T} (op : T -> T -> T) cond n : forall k, (n <= k)%nat -> forall step x r,
  stepping n op cond step x = Ret r -> stepping k op cond step x = Ret r.
Proof.
  induction n as [|n IH]; intros k L step x r Q.
  - cbn [stepping] in Q. destruct k; cbn [stepping]; destruct (cond x); try discriminate; exact Q.
  - destruct k as [|k]; [lia|]. cbn [stepping] in *. destruct (cond x); [|exact Q]. apply IH; auto; lia.
Qed.
Lemma up_settles cond X : (forall E, X <= E -> cond E = false) -> forall x, settles (fun k => stepping k sadd cond (1 : R) x) (fun r => cond r = false /\ x <= r).
Proof.
  intros HX. assert (G : forall n step x, 0 < step -> X <= x + step * INR n -> exists r, stepping n sadd cond step x = Ret r /\ cond r = false /\ x <= r).
  { induction n as [|n IH]; intros step x Hs Hn.
    - cbn [stepping]. cbn [INR] in Hn. rewrite HX by lra. exists x. split; [auto|]. split; [apply HX; lra|lra].
    - cbn [stepping]. destruct (cond x) eqn:C; [|exists x; split; [auto|split; [auto|lra]]].
      change (smul step (sofZ 2)) with (step * 2). change (sadd x step) with (x + step). rewrite S_INR in Hn.
      pose proof (pos_INR n). destruct (IH (step * 2) (x + step)) as (r & A & B & D); [lra|nra|]. exists r. split; [auto|split; [auto|lra]]. }
  intros x. destruct (Rle_dec X x) as [L|L].
  - destruct (G 0%nat 1 x) as (r & A & B); [lra|cbn [INR]; lra|]. exists 0%nat, r. split; auto. intros k Hk. apply (stepping_mono _ _ 0 k Hk _ _ _ A).
  - destruct (Rlt_le_dec 0 (X - x)) as [L0|L0]; [|lra]. pose proof (archimed (X - x)) as [AR _].
    destruct (G (Z.to_nat (up (X - x))) 1 x) as (r & A & B); [lra| |].
    { rewrite INR_IZR_INZ, Z2Nat.id by (apply le_IZR; lra). lra. }
    eexists. exists r. split; [exact B|]. intros k Hk. apply (stepping_mono _ _ _ k Hk _ _ _ A).
Qed.
Lemma down_settles cond X : (forall E, E <= X -> cond E = false) -> forall x, settles (fun k => stepping k ssub cond (1 : R) x) (fun r => cond r = false /\ r <= x).
Proof.
  intros HX. assert (G : forall n step x, 0 < step -> x - step * INR n <= X -> exists r, stepping n ssub cond step x = Ret r /\ cond r = false /\ r <= x).
  { induction n as [|n IH]; intros step x Hs Hn.
    - cbn [stepping]. cbn [INR] in Hn. rewrite HX by lra. exists x. split; [auto|]. split; [apply HX; lra|lra].
    - cbn [stepping]. destruct (cond x) eqn:C; [|exists x; split; [auto|split; [auto|lra]]].
      change (smul step (sofZ 2)) with (step * 2). change (ssub x step) with (x - step). rewrite S_INR in Hn.
      pose proof (pos_INR n). destruct (IH (step * 2) (x - step)) as (r & A & B & D); [lra|nra|]. exists r. split; [auto|split; [auto|lra]]. }
  intros x. destruct (Rle_dec x X) as [L|L].
  - destruct (G 0%nat 1 x) as (r & A & B); [lra|cbn [INR]; lra|]. exists 0%nat, r. split; auto. intros k Hk. apply (stepping_mono _ _ 0 k Hk _ _ _ A).
  - destruct (Rlt_le_dec 0 (x - X)) as [L0|L0]; [|lra]. pose proof (archimed (x - X)) as [AR _].
    destruct (G (Z.to_nat (up (x - X))) 1 x) as (r & A & B); [lra| |].
    { rewrite INR_IZR_INZ, Z2Nat.id by (apply le_IZR; lra). lra. }
    eexists. exists r. split; [exact B|]. intros k Hk. apply (stepping_mono _ _ _ k Hk _ _ _ A).
Qed.
Lemma doubling_mono {T} `{Scalar T} (cond : T -> bool) n : forall k, (n <= k)%nat -> forall x r, doubling n cond x = Ret r -> doubling k cond x = Ret r.
Proof.
  induction n as [|n IH]; intros k L x r Q.
  - cbn [doubling] in Q. destruct k; cbn [doubling]; destruct (cond x); try discriminate; exact Q.
  - destruct k as [|k]; [lia|]. cbn [doubling] in *. destruct (cond x); [|exact Q]. apply IH; auto; lia.
Qed.
Lemma doubling_settles (cond : R -> bool) s X : (s = 1 \/ s = -1) -> (forall E, X <= s * E -> cond E = false) -> settles (fun k => doubling k cond s) (fun _ => True).
Proof.
  intros Hs HX. assert (G : forall n x, X <= s * x * 2 ^ n -> exists r, doubling n cond x = Ret r).
  { induction n as [|n IH]; intros x Hn; cbn [doubling].
    - rewrite HX by (cbn [pow] in Hn; lra). eauto.
    - destruct (cond x); [|eauto]. apply IH. change (smul x (sofZ 2)) with (x * 2). cbn [pow] in Hn. lra. }
  destruct (pow_big 1 X ltac:(lra)) as [n Hn]. destruct (G n s) as [r A].
  { specialize (Hn n (le_n n)). destruct Hs as [-> | ->]; lra. }
  exists n, r. split; auto. intros k Hk. apply (doubling_mono cond n k Hk _ _ A).
Qed.

Section Total.
Variables err derr tmin tmax : R -> R.
Variables (eMin eMax : R) (iMin iMax : Z) (eps : R).
Hypothesis Heps : 0 < eps.
Lemma pair_settles a b : settles (fun k => eigenvaluePair err derr k a b eps) (fun _ => True).
Proof using Heps.
  unfold eigenvaluePair. cbv zeta. eapply settles_bind; [apply settles_bs; auto|]. intros mid _.
  destruct (same_sign _ _); [apply settles_ret; auto|].
  eapply settles_bind; [apply settles_bs; auto|]. intros p _. eapply settles_bind; [apply settles_bs; auto|]. intros q _. apply settles_ret; auto.
Qed.
(** towards -infinity the angle differences fall below the first thresholds, towards +infinity they
    exceed every requested index *)
Hypothesis Hlow : exists X, forall E, E <= X -> tmin E <= 0 /\ tmax E <= 1.
Hypothesis Hhigh : exists X, forall E, X <= E -> IZR iMax + 2 <= tmax E.
Lemma low_settles i low : (1 <= i)%Z -> settles (fun k => stepping k ssub (fun E => slt (sofZ 0) (findLow tmin i E)) (sofZ 1) low) (fun _ => True).
Proof using Hlow.
  intros Hi. destruct Hlow as [X HX]. assert (Hi' : 1 <= IZR i) by (apply (IZR_le 1); lia).
  destruct (down_settles (fun E => slt (sofZ 0) (findLow tmin i E)) X) with (x := low) as (n & r & _ & G).
  { intros E HE. apply Rltb_false. unfold findLow. change (tmin E - IZR i + 1 <= 0). destruct (HX E HE). lra. }
  exists n, r. auto.
Qed.
Lemma pairs_settle highest d : forall turns i low, (1 <= i)%Z -> (Z.to_nat (iMax + 2 - i) <= turns)%nat ->
  settles (fun k => pairs_loop err derr tmin tmax k (k - d) eMin eMax iMin iMax eps highest i low) (fun _ => True).
Proof using Heps Hlow.
  intros turns. revert d. induction turns as [|turns IH]; intros d i low Hi Ht.
  - exists 0%nat, []. split; auto. intros k _. destruct (k - d)%nat; cbn [pairs_loop]; (destruct (i <=? iMax + 1)%Z eqn:L; [apply Z.leb_le in L; lia|reflexivity]).
  - destruct (i <=? iMax + 1)%Z eqn:L.
    2:{ exists 0%nat, []. split; auto. intros k _. destruct (k - d)%nat; cbn [pairs_loop]; rewrite L; reflexivity. }
    assert (G : settles (fun k => 
        do low <- stepping k ssub (fun E => slt (sofZ 0) (findLow tmin i E)) (sofZ 1) low;
        do low <- binarySearch k low highest (findLow tmin i) eps (findLow tmin i low);
        do high <- binarySearch k low highest (findHigh tmax i) eps (findHigh tmax i low);
        do p <- eigenvaluePair err derr k low high eps;
        let out :=
          if slt (ssub (snd p) (fst p)) eps
          then addToResult eMin eMax iMin iMax (i - 1) (sdiv (sadd (fst p) (snd p)) (sofZ 2)) true
          else addToResult eMin eMax iMin iMax (i - 1) (fst p) false ++ addToResult eMin eMax iMin iMax i (snd p) false in
        do rest <- pairs_loop err derr tmin tmax k (k - S d) eMin eMax iMin iMax eps highest (i + 2) low;
        Ret (out ++ rest)) (fun _ => True)).
    { eapply settles_bind; [apply low_settles; auto|]. intros low1 _.
      eapply settles_bind; [apply settles_bs; auto|]. intros low2 _.
      eapply settles_bind; [apply settles_bs; auto|]. intros high _.
      eapply settles_bind; [apply pair_settles|]. intros p _. cbv zeta.
      eapply settles_bind; [apply IH; lia|]. intros rest _. apply settles_ret; auto. }
    destruct G as (n & r & _ & G). exists (max n (S d)), r. split; auto. intros k Hk. specialize (G k ltac:(lia)). rewrite <- G.
    replace (k - d)%nat with (S (k - S d)) by lia. cbn [pairs_loop]. rewrite L. reflexivity.
Qed.
Theorem C43_total anti : (-1 <= iMin)%Z ->
  exists n out, forall fuel, (n <= fuel)%nat -> eigenpairsHelper err derr tmin tmax fuel anti eMin eMax iMin iMax eps = Ret out.
Proof using Heps Hlow Hhigh.
  intros Hi. assert (G : settles (fun k => eigenpairsHelper err derr tmin tmax k anti eMin eMax iMin iMax eps) (fun _ => True)).
  { unfold eigenpairsHelper. destruct Hhigh as [X HX].
    eapply settles_bind.
    { apply up_settles with (X := X). intros E HE. apply Rltb_false. unfold findHigh.
      change (0 <= tmax E - IZR (iMax + 1) - 1). rewrite plus_IZR. specialize (HX E HE). lra. }
    intros highest _. cbv zeta.
    set (i := (iMin - Z.rem iMin 2 + (if anti then 1 else 0))%Z).
    assert (Ri : (0 <= i)%Z).
    { subst i. destruct (Z.eq_dec iMin (-1)) as [-> |]; [cbn; destruct anti; lia|]. pose proof (Z.rem_le iMin 2). destruct anti; lia. }
    destruct (i =? 0)%Z eqn:I0.
    - apply Z.eqb_eq in I0. rewrite I0. destruct Hlow as [X' HX'].
      eapply settles_bind.
      { apply down_settles with (X := X'). intros E HE. apply Rltb_false. unfold findHigh.
        change (tmax E - 0 - 1 <= 0). destruct (HX' E HE). lra. }
      intros low _. eapply settles_bind; [apply settles_bs; auto|]. intros high _.
      eapply settles_bind; [apply settles_bs; auto|]. intros E _.
      eapply settles_bind.
      { destruct (pairs_settle highest 0 (Z.to_nat (iMax + 2 - (0 + 2))) (0 + 2) low ltac:(lia) ltac:(lia)) as (n & r & _ & G). exists n, r. split; [exact I|].
        intros k Hk. specialize (G k Hk). rewrite Nat.sub_0_r in G. exact G. }
      intros rest _. apply settles_ret; auto.
    - apply Z.eqb_neq in I0.
      destruct (pairs_settle highest 0 (Z.to_nat (iMax + 2 - i)) i eMin ltac:(lia) ltac:(lia)) as (n & r & _ & G). exists n, r. split; [exact I|].
      intros k Hk. specialize (G k Hk). rewrite Nat.sub_0_r in G. exact G. }
  destruct G as (n & r & _ & G). exists n, r. exact G.
Qed.
End Total.
(** Asking for indices from -2 or -3 on: the energy is lowered for ever, whatever the angles (> -3). *)
Theorem C43_negative_diverges (err derr tmin tmax : R -> R) eMin eMax iMin iMax eps fuel :
  (iMin = -2 \/ iMin = -3)%Z -> (-3 <= iMax)%Z -> (forall E, -3 < tmin E) -> forall out, eigenpairsHelper err derr tmin tmax fuel false eMin eMax iMin iMax eps <> Ret out.
Proof.
  intros Hi Him Ht out. unfold eigenpairsHelper. destruct (stepping _ _ _ _ eMax) as [highest| | |]; try discriminate. cbn [bind].
  assert (Q : (iMin - Z.rem iMin 2 + 0 = -2)%Z) by (destruct Hi as [-> | ->]; reflexivity). cbv zeta. rewrite Q. change (-2 =? 0)%Z with false. cbv iota.
  destruct fuel as [|n] eqn:Ef; cbn [pairs_loop]; (destruct (-2 <=? iMax + 1)%Z eqn:L; [|apply Z.leb_gt in L; lia]); [discriminate|].
  assert (G : forall n op step x, stepping n op (fun E => slt (sofZ 0) (findLow tmin (-2) E)) step x = Fuel).
  { intros k op. induction k as [|k IH]; intros step x; cbn [stepping]; 
      (replace (slt (sofZ 0) (findLow tmin (-2) x)) with true; [auto|symmetry; apply Rltb_true; unfold findLow; specialize (Ht x); change (0 < tmin x - IZR (-2) + 1); lra]). }
  rewrite G. discriminate.
Qed.
Example C43_negative_case : (forall E : R, -3 < (fun _ => -1) E) /\ (-2 = -2 \/ -2 = -3)%Z.
Proof. split; [intros; lra|lia]. Qed.
(** an angle function satisfying the hypotheses of C43_total: E/10, as for both angles of a problem *)
Example C43_case : exists n out, forall fuel, (n <= fuel)%nat -> periodic_byIndex (fun E => E - 3) (fun E => 1) (fun E => E / 10) (fun E => E / 10 + 1 / 2) fuel false 0 5 = Ret out.
Proof.
  assert (G : settles (fun k => periodic_byIndex (fun E => E - 3) (fun E => 1) (fun E => E / 10) (fun E => E / 10 + 1 / 2) k false 0 5) (fun _ => True)).
  { unfold periodic_byIndex. eapply settles_bind.
    { apply (doubling_settles _ (-1) 0); [lra|]. intros E HE. apply Rltb_false. cbn. lra. }
    intros eMin _. eapply settles_bind.
    { apply (doubling_settles _ 1 100); [lra|]. intros E HE. apply Rltb_false. cbn. lra. }
    intros eMax _.
    destruct (C43_total (fun E => E - 3) (fun E => 1) (fun E => E / 10) (fun E => E / 10 + 1 / 2) eMin eMax 0 5 eps8) with (anti := false) as (n & out & G).
    - unfold eps8. cbn. lra.
    - exists 0. intros; lra.
    - exists 100. intros; lra.
    - lia.
    - exists n, out. auto. }
  destruct G as (n & r & _ & G). exists n, r. exact G.
Qed.

(** The two energies of a pair: inside the bracket; unless the determinant has the same sign at the left
    end and at the extremum (then one energy is returned twice), the first is within half the stopping
    width of a zero of the determinant, and so is the second if the determinant changes sign again. *)
Theorem C43_pair err derr fuel Emin Emax eps p : 0 < eps -> Emin <= Emax -> continuous_on err Emin Emax ->
  eigenvaluePair err derr fuel Emin Emax eps = Ret p ->
  Emin <= fst p <= snd p /\ snd p <= Emax /\
  (fst p = snd p \/ exists mid, Emin <= fst p <= mid /\ mid <= snd p <= Emax /\ err Emin * err mid <= 0 /\
     let w := eps / 2 * Rmax 1 (Rmax (Rabs Emin) (Rabs Emax)) in
     (exists z, Emin <= z <= mid /\ err z = 0 /\ Rabs (fst p - z) <= w) /\
     (err mid * err Emax <= 0 -> exists z, mid <= z <= Emax /\ err z = 0 /\ Rabs (snd p - z) <= w)).
Proof.
  intros He Hl C. unfold eigenvaluePair. cbv zeta.
  destruct (binarySearch _ _ _ derr _ _) as [mid| | |] eqn:M; try discriminate. cbn [bind].
  apply C42_inside in M; auto.
  destruct (same_sign (err Emin) (err mid)) eqn:SS; [intros Q; injection Q as <-; cbn [fst snd]; split; [lra|]; split; [lra|auto]|].
  apply same_sign_R0 in SS.
  destruct (binarySearch _ Emin mid _ _ _) as [a| | |] eqn:A; try discriminate. cbn [bind].
  destruct (binarySearch _ mid Emax _ _ _) as [b| | |] eqn:B; try discriminate. cbn [bind].
  intros Q; injection Q as <-. cbn [fst snd].
  pose proof (C42_inside _ _ _ _ _ _ _ He (proj1 M) A) as Ia. pose proof (C42_inside _ _ _ _ _ _ _ He (proj2 M) B) as Ib.
  split; [lra|]. split; [lra|]. right. exists mid. split; [lra|]. split; [lra|]. split; auto.
  assert (W : forall u v, Emin <= u <= Emax -> Emin <= v <= Emax ->
     eps / 2 * Rmax 1 (Rmax (Rabs u) (Rabs v)) <= eps / 2 * Rmax 1 (Rmax (Rabs Emin) (Rabs Emax))).
  { intros u v Hu Hv. apply Rmult_le_compat_l; [lra|]. apply Rle_max_compat_l. apply Rmax_lub; apply RmaxAbs; lra. }
  split.
  - destruct (C42_zero err eps Emin mid fuel a He (proj1 M)) as (z & Hz & Z & D); auto. { intros x Hx. apply C. lra. }
    exists z. split; auto. split; auto. specialize (W Emin mid ltac:(lra) ltac:(lra)). lra.
  - intros SE. destruct (C42_zero err eps mid Emax fuel b He (proj2 M)) as (z & Hz & Z & D); auto. { intros x Hx. apply C. lra. }
    exists z. split; auto. split; auto. specialize (W mid Emax ltac:(lra) ltac:(lra)). lra.
Qed.

(** ** C44 *)
(** Boundary value v = (y, y'), not depending on the energy. *)
Definition data (v : R * R) : Y := mkY (fst v) (snd v) 0 0.
Definition vadd (a b : R * R) : R * R := (fst a + fst b, snd a + snd b).
Definition vscale (c : R) (a : R * R) : R * R := (c * fst a, c * snd a).
(** the point where left and right solutions are compared *)
Definition matchpoint (l : list sec) (m : Z) : R := match vget l m with Ret s => smax s | _ => 0 end.

Lemma singular a b c d : a * d - b * c = 0 <-> exists x y, (x, y) <> (0, 0) /\ a * x + b * y = 0 /\ c * x + d * y = 0.
Proof.
  split.
  - intros D. destruct (Req_dec a 0) as [A|A]; [destruct (Req_dec b 0) as [B|B]; [destruct (Req_dec c 0) as [C|C]|]|].
    + destruct (Req_dec d 0) as [D0|D0]; [exists 1, 0|exists 1, 0]; (split; [intros Q; injection Q; lra|]); subst; lra.
    + exists (- d / c), 1. split; [intros Q; injection Q; lra|]. subst. split; [ring|field; auto].
    + exists b, (- a). split; [intros Q; injection Q; lra|]. split; [ring|lra].
    + exists (- b / a), 1. split; [intros Q; injection Q; lra|]. split; [field; auto|].
      apply (Rmult_eq_reg_l a); auto. transitivity (a * d - b * c); [field; auto|lra].
  - intros (x & y & N & A & B).
    assert (X : x * (a * d - b * c) = 0). { transitivity (d * (a * x + b * y) - b * (c * x + d * y)); [ring|rewrite A, B; ring]. }
    assert (Y : y * (a * d - b * c) = 0). { transitivity (a * (c * x + d * y) - c * (a * x + b * y)); [ring|rewrite A, B; ring]. }
    apply Rmult_integral in X, Y. destruct X as [X|X]; auto. destruct Y as [Y|Y]; auto. exfalso. apply N. subst. reflexivity.
Qed.
Section Matching.
Variable calcT : sec -> R -> R -> bool -> Tm.
Variables (vm : R) (l : list sec) (m : Z) (lo hi : R) (K : M22).
Hypothesis Hp : partition lo hi l.
Hypothesis Ho : forall s, In s l -> smin s <= smax s.
Hypothesis Hm : (0 <= m < Z.of_nat (length l))%Z.
Notation xm := (matchpoint l m).
Definition LL (E : R) (u : bool) (y : Y) : Y := runY calcT vm (if Rleb lo xm then l else rev l) E lo xm u y.
Definition RR (E : R) (u : bool) (y : Y) : Y := runY calcT vm (if Rleb hi xm then l else rev l) E hi xm u y.
Lemma xm_in : exists sm, vget l m = Ret sm /\ xm = smax sm /\ lo <= xm <= hi /\ lo <= hi.
Proof using Hp Ho Hm.
  destruct (vget_in l m Hm) as [sm [Hsm En]]. exists sm. split; auto. unfold matchpoint. rewrite Hsm. split; auto.
  destruct (chain_order l lo hi (proj2 Hp) Ho) as [Hlh Hin]. apply nth_error_In in En. specialize (Hin sm En). specialize (Ho sm En). lra.
Qed.
Lemma LL_val E u y : exists th, propagate calcT vm l lo hi E y lo xm u = Ret (LL E u y, th).
Proof using Hp Ho Hm. destruct xm_in as (sm & _ & _ & B & _). apply propagate_full; auto; lra. Qed.
Lemma RR_val E u y : exists th, propagate calcT vm l lo hi E y hi xm u = Ret (RR E u y, th).
Proof using Hp Ho Hm. destruct xm_in as (sm & _ & _ & B & _). apply propagate_full; auto; lra. Qed.
(** mismatch of the solutions starting with v on the left and K v on the right *)
Definition mis (E : R) (u : bool) (v : R * R) : Y := ysub (LL E u (data v)) (RR E u (data (mapply K v))).
Lemma pm_val E u : exists ths, periodicMatching calcT vm l m lo hi K E u = Ret ([mis E u (1, 1); mis E u (1, -1)], ths).
Proof using Hp Ho Hm.
  destruct xm_in as (sm & Vm & Xm & B & _). unfold periodicMatching. rewrite Vm. cbn [bind]. rewrite <- Xm.
  destruct (C22_columns calcT vm l lo hi E (periodicInitialValue Mid) lo xm u) as (rs & -> & F); [intros y _; destruct (LL_val E u y); eauto|discriminate|].
  cbn [bind]. destruct (C22_columns calcT vm l lo hi E (periodicInitialValue K) hi xm u) as (rs' & -> & F'); [intros y _; destruct (RR_val E u y); eauto|discriminate|].
  cbn [bind]. unfold periodicInitialValue in F, F'.
  inversion F as [|? r1 ? rs1 P1 F1]; subst. inversion F1 as [|? r2 ? rs2 P2 F2]; subst. inversion F2; subst.
  inversion F' as [|? q1 ? qs1 P1' F1']; subst. inversion F1' as [|? q2 ? qs2 P2' F2']; subst. inversion F2'; subst. clear F F1 F2 F' F1' F2'.
  destruct (LL_val E u (initialColumn Mid (1, 1))) as [a1 A1]. destruct (LL_val E u (initialColumn Mid (1, -1))) as [a2 A2].
  destruct (RR_val E u (initialColumn K (1, 1))) as [b1 B1]. destruct (RR_val E u (initialColumn K (1, -1))) as [b2 B2].
  rewrite P1 in A1. rewrite P2 in A2. rewrite P1' in B1. rewrite P2' in B2. injection A1 as ->. injection A2 as ->. injection B1 as ->. injection B2 as ->.
  cbn [map fst snd combine]. eexists. f_equal. f_equal. unfold mis.
  assert (I1 : initialColumn Mid (1, 1) = data (1, 1)) by (unfold initialColumn, data, mapply, Mid; cbn; f_equal; ring).
  assert (I2 : initialColumn Mid (1, -1) = data (1, -1)) by (unfold initialColumn, data, mapply, Mid; cbn; f_equal; ring).
  rewrite I1, I2. reflexivity.
Qed.
Lemma mis_lin E u c d v w : y0 (mis E u (vadd (vscale c v) (vscale d w))) = c * y0 (mis E u v) + d * y0 (mis E u w) /\
  y1 (mis E u (vadd (vscale c v) (vscale d w))) = c * y1 (mis E u v) + d * y1 (mis E u w).
Proof using.
  clear Hp Ho Hm.
  assert (D : data (vadd (vscale c v) (vscale d w)) = yadd (yscale c (data v)) (yscale d (data w))) by (unfold data, vadd, vscale, yadd, yscale; cbn; f_equal; ring).
  assert (D' : data (mapply K (vadd (vscale c v) (vscale d w))) = yadd (yscale c (data (mapply K v))) (yscale d (data (mapply K w))))
    by (unfold data, mapply, vadd, vscale, yadd, yscale; cbn; f_equal; ring).
  unfold mis. rewrite D, D'. unfold LL, RR.
  destruct (runY_linear calcT vm (if Rleb lo xm then l else rev l) E lo xm u) as [A1 A2].
  destruct (runY_linear calcT vm (if Rleb hi xm then l else rev l) E hi xm u) as [B1 B2].
  rewrite A1, B1, !A2, !B2. unfold ysub, yadd, yscale; cbn. split; ring.
Qed.
Lemma mis_comb E u c : y0 (ycomb [mis E u (1, 1); mis E u (1, -1)] c) = y0 (mis E u (fst c + snd c, fst c - snd c)) /\
  y1 (ycomb [mis E u (1, 1); mis E u (1, -1)] c) = y1 (mis E u (fst c + snd c, fst c - snd c)).
Proof using.
  clear Hp Ho Hm. destruct (mis_lin E u (fst c) (snd c) (1, 1) (1, -1)) as [A B].
  replace (vadd (vscale (fst c) (1, 1)) (vscale (snd c) (1, -1))) with (fst c + snd c, fst c - snd c) in * by (unfold vadd, vscale; cbn; f_equal; ring).
  rewrite A, B. unfold ycomb; cbn [y0 y1]. split; ring.
Qed.
(** The reported error is 0 exactly when some nonzero boundary value v on the left, together with K v on
    the right, gives solutions that agree (value and derivative) at the matching point. *)
Theorem C44_zero E u : exists cols ths d dd,
  periodicMatching calcT vm l m lo hi K E u = Ret (cols, ths) /\ calculateMatchingError cols = Ret (d, dd) /\
  (d = 0 <-> exists v, v <> (0, 0) /\ exists a b ta tb,
     propagate calcT vm l lo hi E (data v) lo xm u = Ret (a, ta) /\ propagate calcT vm l lo hi E (data (mapply K v)) hi xm u = Ret (b, tb) /\
     y0 a = y0 b /\ y1 a = y1 b).
Proof using Hp Ho Hm.
  destruct (pm_val E u) as [ths P]. eexists _, ths, _, _. split; [exact P|]. split; [reflexivity|].
  rewrite (singular (y0 (mis E u (1, 1))) (y0 (mis E u (1, -1))) (y1 (mis E u (1, 1))) (y1 (mis E u (1, -1)))).
  split.
  - intros (x & y & N & A & B). exists (x + y, x - y). split; [intros Q; apply N; injection Q as Q1 Q2; f_equal; lra|].
    destruct (LL_val E u (data (x + y, x - y))) as [ta TA]. destruct (RR_val E u (data (mapply K (x + y, x - y)))) as [tb TB].
    eexists _, _, ta, tb. split; [exact TA|]. split; [exact TB|].
    destruct (mis_comb E u (x, y)) as [C0 C1]. cbn [fst snd ycomb y0 y1] in C0, C1. rewrite A in C0. rewrite B in C1.
    unfold mis in C0, C1. unfold ysub in C0, C1; cbn [y0 y1] in C0, C1. lra.
  - intros (v & N & a & b & ta & tb & TA & TB & Q0 & Q1).
    destruct (LL_val E u (data v)) as [ta' TA']. destruct (RR_val E u (data (mapply K v))) as [tb' TB'].
    rewrite TA in TA'. rewrite TB in TB'. injection TA' as -> _. injection TB' as -> _.
    exists ((fst v + snd v) / 2), ((fst v - snd v) / 2). split.
    { intros Q. apply N. rewrite (surjective_pairing v). injection Q as Q2 Q3. f_equal; lra. }
    destruct (mis_comb E u ((fst v + snd v) / 2, (fst v - snd v) / 2)) as [C0 C1]. cbn [fst snd ycomb y0 y1] in C0, C1.
    rewrite C0, C1. replace ((fst v + snd v) / 2 + (fst v - snd v) / 2) with (fst v) by field. replace ((fst v + snd v) / 2 - (fst v - snd v) / 2) with (snd v) by field.
    rewrite <- surjective_pairing. unfold mis, ysub; cbn [y0 y1]. lra.
Qed.
(** The second number is the energy derivative of the first. *)
Theorem C44_derivative u E : (forall s d, In s l -> T_deriv (fun E => calcT s E d u) E) ->
  exists d dd : R -> R, (forall x, (do p <- periodicMatching calcT vm l m lo hi K x u; calculateMatchingError (fst p)) = Ret (d x, dd x)) /\
    is_derive d E (dd E).
Proof using Hp Ho Hm.
  intros D.
  assert (Y0 : forall v E, Y_deriv (fun _ => data v) E) by (intros v x; split; apply is_derive_Reals, derivable_pt_lim_const).
  assert (DM : forall v, Y_deriv (fun x => mis x u v) E).
  { intros v.
    assert (DL : Y_deriv (fun x => LL x u (data v)) E). { apply (runY_deriv calcT vm _ lo xm u (fun _ => data v)); auto. intros s d Hs. apply D. destruct (Rleb _ _); auto. apply in_rev; auto. }
    assert (DR : Y_deriv (fun x => RR x u (data (mapply K v))) E). { apply (runY_deriv calcT vm _ hi xm u (fun _ => data (mapply K v))); auto. intros s d Hs. apply D. destruct (Rleb _ _); auto. apply in_rev; auto. }
    destruct DL as [L0 L1], DR as [R0 R1]. split; unfold mis, ysub; cbn [y0 y1 e0 e1]; apply is_derive_minusR; assumption. }
  exists (fun x => y0 (mis x u (1, 1)) * y1 (mis x u (1, -1)) - y0 (mis x u (1, -1)) * y1 (mis x u (1, 1))),
    (fun x => e0 (mis x u (1, 1)) * y1 (mis x u (1, -1)) + y0 (mis x u (1, 1)) * e1 (mis x u (1, -1)) - e0 (mis x u (1, -1)) * y1 (mis x u (1, 1)) - y0 (mis x u (1, -1)) * e1 (mis x u (1, 1))).
  split.
  - intros x. destruct (pm_val x u) as [ths ->]. reflexivity.
  - destruct (DM (1, 1)) as [A0 A1]. destruct (DM (1, -1)) as [B0 B1].
    evar_last; [apply is_derive_minusR; apply is_derive_multR; eassumption|]. cbn beta. match goal with |- ?a = ?b => change (@eq R a b) end. cbn. ring.
Qed.
End Matching.

(** ** C45 *)
Definition vals (y : Y) : R * R := (y0 y, y1 y).
Section Functions.
Variable calcT : sec -> R -> R -> bool -> Tm.
Variables (vm : R) (l : list sec) (m : Z) (lo hi : R) (K : M22) (E : R).
Hypothesis Hp : partition lo hi l.
Hypothesis Ho : forall s, In s l -> smin s < smax s.
Hypothesis Hm : (0 <= m < Z.of_nat (length l))%Z.
Hypothesis Hd : directions_ok l m.
Hypothesis Dt : forall s d, In s l -> det (calcT s E d true) <> 0.
Lemma Ho' : forall s, In s l -> smin s <= smax s.
Proof using Ho. intros s Hs. specialize (Ho s Hs). lra. Qed.
Lemma ratio_one a b : y0 a = y0 b -> y1 a = y1 b -> nonzero a -> ratio a b = 1.
Proof using.
  clear. intros A B N. unfold ratio. rewrite A, B. destruct (Rltb _ _) eqn:L; [apply Rltb_true in L|apply Rltb_false in L].
  - assert (y0 b <> 0). { intros Z. rewrite Z, Rabs_R0 in L. pose proof (Rabs_pos (y1 b)). lra. } field; auto.
  - assert (y1 b <> 0).
    { intros Z. rewrite Z, Rabs_R0 in L. pose proof (Rabs_pos (y0 b)). assert (Q : Rabs (y0 b) = 0) by lra. unfold nonzero in N. rewrite A, B, Z in N.
      destruct N as [N|N]; [|lra]. apply Rabs_no_R0 in N. lra. } field; auto.
Qed.
(** If the solutions starting with left and right agree at the matching point, the eigenfunction takes
    the same multiple of both boundary values. *)
Lemma same_multiple left right a b ta tb : nonzero left ->
  propagate calcT vm l lo hi E left lo (matchpoint l m) true = Ret (a, ta) ->
  propagate calcT vm l lo hi E right hi (matchpoint l m) true = Ret (b, tb) -> y0 a = y0 b -> y1 a = y1 b ->
  (exists k, 0 < k /\ eigenfunction_at calcT vm l m E lo hi left right lo = Ret (k * y0 left, k * y1 left) /\
    eigenfunction_at calcT vm l m E lo hi left right hi = Ret (k * y0 right, k * y1 right)) /\
  exists d th, matchingError calcT vm l m lo hi E left right true = Ret (0, d, th).
Proof using Hp Ho Hm Hd Dt.
  intros Nl PA PB Q0 Q1. destruct (IZN m ltac:(lia)) as [M Em]. assert (HM : (M < length l)%nat) by lia.
  destruct (prop_vals calcT vm l lo hi E Hp Ho M HM left right) as (sm & t1 & t2 & Vm & P1 & P2).
  assert (X : matchpoint l m = smax sm) by (unfold matchpoint; rewrite Em, Vm; reflexivity).
  rewrite X in PA, PB. rewrite P1 in PA. rewrite P2 in PB. injection PA as <- _. injection PB as <- _.
  assert (Ny : nonzero (yl calcT vm l E M left)) by (apply Lf_nonzero; auto).
  assert (Nz : nonzero (yr calcT vm l E M right)) by (unfold nonzero in *; rewrite <- Q0, <- Q1; auto).
  assert (Z : y1 (yl calcT vm l E M left) * y0 (yr calcT vm l E M right) - y1 (yr calcT vm l E M right) * y0 (yl calcT vm l E M left) = 0) by (rewrite Q0, Q1; ring).
  pose proof (norm_pos calcT vm l E M left right) as NP.
  assert (CC : cr calcT vm l E M left right = cl calcT vm l E M left right) by (unfold cr, cl; rewrite (ratio_one _ _ Q0 Q1 Ny); reflexivity).
  split.
  - exists (cl calcT vm l E M left right). split; [unfold cl; apply Rdiv_lt_0_compat; lra|]. rewrite Em in *. split.
    + rewrite (at_lo calcT vm l lo hi E Hp Ho M HM left right).
      destruct (first_sec l lo hi Hp) as (s & Es & Ms). change 0%Z with (Z.of_nat 0).
      rewrite (efin_l calcT vm l E M HM left right Hd 0 s lo ltac:(lia) Es). rewrite yp_min by lra.
      unfold val2, yscale, Lf; cbn. f_equal. f_equal; ring.
    + rewrite <- CC. rewrite (at_hi calcT vm l lo hi E Hp Ho M HM left right).
      destruct (last_sec l lo hi Hp) as (s & Es & Ms). replace (Z.of_nat (length l) - 1)%Z with (Z.of_nat (length l - 1)) in * by lia. rewrite Nat2Z.id in Es.
      destruct (Nat.eq_dec M (length l - 1)) as [KM|KM].
      * rewrite (efin_l calcT vm l E M HM left right Hd (length l - 1) s hi ltac:(lia) Es).
        pose proof (Lf_S calcT vm l E left (length l - 1) s Es) as LS. cbn beta in LS. rewrite <- Ms, <- LS.
        replace (S (length l - 1)) with (S M) by lia. fold (yl calcT vm l E M left).
        rewrite (match_vals calcT vm l E M left right Z Ny Nz).
        assert (YR : yr calcT vm l E M right = right) by (unfold yr; replace (S M) with (length l) by lia; apply Rf_end).
        unfold val2, yscale; cbn [y0 y1]. rewrite YR. f_equal. f_equal; apply Rmult_comm.
      * rewrite (efin_r calcT vm l E M HM left right Hd (length l - 1) s hi ltac:(lia) Es). rewrite yp_max by lra.
        replace (S (length l - 1)) with (length l) by lia. rewrite Rf_end. unfold val2, yscale; cbn. f_equal. f_equal; apply Rmult_comm.
  - destruct (matching_vals calcT vm l lo hi E Hp Ho M HM left right) as (th & ME). rewrite Em, ME, Z. eauto.
Qed.
Lemma data_nonzero v : v <> (0, 0) -> nonzero (data v).
Proof using. clear. intros N. unfold nonzero, data; cbn. destruct (Req_dec (fst v) 0) as [A|A]; auto. right. intros B. apply N. rewrite (surjective_pairing v). f_equal; auto. Qed.
Lemma boundary_ok v : v <> (0, 0) -> y0 (mis calcT vm l m lo hi K E true v) = 0 -> y1 (mis calcT vm l m lo hi K E true v) = 0 ->
  (exists w, w <> (0, 0) /\ eigenfunction_at calcT vm l m E lo hi (data v) (data (mapply K v)) lo = Ret w /\
     eigenfunction_at calcT vm l m E lo hi (data v) (data (mapply K v)) hi = Ret (mapply K w)) /\
  exists d th, matchingError calcT vm l m lo hi E (data v) (data (mapply K v)) true = Ret (0, d, th).
Proof using Hp Ho Hm Hd Dt.
  intros N Z0 Z1. destruct (LL_val calcT vm l m lo hi Hp Ho' Hm E true (data v)) as [ta TA].
  destruct (RR_val calcT vm l m lo hi Hp Ho' Hm E true (data (mapply K v))) as [tb TB].
  unfold mis, ysub in Z0, Z1; cbn [y0 y1] in Z0, Z1.
  destruct (same_multiple _ _ _ _ _ _ (data_nonzero v N) TA TB ltac:(lra) ltac:(lra)) as [(k & Hk & FL & FH) ME]. split; auto.
  exists (vscale k v). split.
  { intros Q. apply N. rewrite (surjective_pairing v). unfold vscale in Q. injection Q as A B. apply Rmult_integral in A, B. f_equal; lra. }
  rewrite FL, FH. unfold vscale, data, mapply; cbn. split; f_equal. f_equal; ring.
Qed.
(** The eigenfunctions returned with the eigenpairs.  Given the mismatch matrix at E and, for a simple
    eigenvalue, a vector c in its kernel (the matrix is 0 for a double one): every returned function is
    built from a left value and K times it on the right, is not zero at the ends, satisfies
    (f, f')(hi) = K (f, f')(lo), and its two halves match. *)
Theorem C45_eigenpairs_partial cols ths (isDouble : bool) c :
  periodicMatching calcT vm l m lo hi K E true = Ret (cols, ths) ->
  (if isDouble then Forall (fun col => vals col = (0, 0)) cols else c <> (0, 0) /\ vals (ycomb cols c) = (0, 0)) ->
  length (boundaries K isDouble c) = (if isDouble then 2 else 1)%nat /\
  Forall (fun b => vals (snd b) = mapply K (vals (fst b)) /\
    (exists w, w <> (0, 0) /\ eigenfunction_at calcT vm l m E lo hi (fst b) (snd b) lo = Ret w /\
      eigenfunction_at calcT vm l m E lo hi (fst b) (snd b) hi = Ret (mapply K w)) /\
    exists d th, matchingError calcT vm l m lo hi E (fst b) (snd b) true = Ret (0, d, th)) (boundaries K isDouble c).
Proof using Hp Ho Hm Hd Dt.
  intros P Hc. destruct (pm_val calcT vm l m lo hi K Hp Ho' Hm E true) as [ths' P']. rewrite P in P'. injection P' as -> _.
  assert (CO : forall v, initialColumn Mid v = data v /\ initialColumn K v = data (mapply K v)).
  { intros v. split; [|reflexivity]. unfold initialColumn, data, mapply, Mid; cbn. f_equal; ring. }
  assert (GO : forall v, v <> (0, 0) -> vals (mis calcT vm l m lo hi K E true v) = (0, 0) ->
    vals (data (mapply K v)) = mapply K (vals (data v)) /\
    (exists w, w <> (0, 0) /\ eigenfunction_at calcT vm l m E lo hi (data v) (data (mapply K v)) lo = Ret w /\
      eigenfunction_at calcT vm l m E lo hi (data v) (data (mapply K v)) hi = Ret (mapply K w)) /\
    exists d th, matchingError calcT vm l m lo hi E (data v) (data (mapply K v)) true = Ret (0, d, th)).
  { intros v N Z. split; [reflexivity|]. assert (Z' := f_equal fst Z). assert (Z2 := f_equal snd Z). cbn [vals fst snd] in Z', Z2. apply boundary_ok; auto. }
  destruct isDouble; unfold boundaries, periodicInitialValue; cbn [combine length]; (split; [reflexivity|]).
  - inversion Hc as [|? ? A1 Hc1]; subst. inversion Hc1 as [|? ? A2 _]; subst.
    destruct (CO (1, 1)) as [-> ->]. destruct (CO (1, -1)) as [-> ->].
    constructor; [|constructor; [|constructor]]; cbn [fst snd]; apply GO; auto; intros Q; injection Q; lra.
  - destruct Hc as [N Z]. assert (Z' := f_equal fst Z). assert (Z2 := f_equal snd Z). cbn [vals fst snd] in Z', Z2.
    destruct (mis_comb calcT vm l m lo hi K E true c) as [C0 C1]. rewrite C0 in Z'. rewrite C1 in Z2.
    constructor; [|constructor]. cbn [fst snd]. set (v := (fst c + snd c, fst c - snd c)).
    assert (B1 : ycomb [initialColumn Mid (1, 1); initialColumn Mid (1, -1)] c = data v) by (unfold ycomb, initialColumn, mapply, Mid, data, v; cbn; f_equal; ring).
    assert (B2 : ycomb [initialColumn K (1, 1); initialColumn K (1, -1)] c = data (mapply K v)) by (unfold ycomb, initialColumn, mapply, data, v; cbn; f_equal; ring).
    rewrite B1, B2. apply GO.
    + intros Q. apply N. rewrite (surjective_pairing c). unfold v in Q. injection Q as Q1 Q2. f_equal; lra.
    + unfold vals, v. rewrite Z', Z2. reflexivity.
Qed.
End Functions.

(** *** eigenfunction(E): wrong boundary values.  -y'' = E y on [0, 1], periodic, E = 0: the constant
    function, a simple eigenvalue. *)
Definition pe_l : list sec := [mkSector 0 1 Dfwd [0]].
(** the exact propagation matrices at E = 0 *)
Definition pe_T (_ : sec) (_ d : R) (_ : bool) : Tm := mkT 1 d 0 1 (- d ^ 2 / 2) (- d ^ 3 / 6) (- d) (- d ^ 2 / 2).
Lemma pe_partition : partition 0 1 pe_l. Proof. split; [discriminate|]. cbn. auto. Qed.
Lemma pe_strict : forall s, In s pe_l -> smin s < smax s. Proof. intros s [<-|[]]; cbn; lra. Qed.
Lemma pe_dirs : directions_ok pe_l 0. Proof. intros [|[|k]] s Hs; cbn in Hs; [injection Hs as <-; reflexivity|discriminate|discriminate]. Qed.
Lemma pe_det s d : det (pe_T s 0 d true) <> 0. Proof. unfold det, pe_T; cbn. lra. Qed.
Lemma pe_exact (s : sec) : In s pe_l -> exact_propagator (fun (y : Y) (a b : R) => sprop_y pe_T 0 s 0 y a b true) (fun _ : R => 0) 0 (smin s) (smax s).
Proof.
  intros Hs. apply exact_of_T with (t := fun d => pe_T s 0 d true).
  - apply pe_strict; auto.
  - destruct Hs as [<-|[]]; left; reflexivity.
  - unfold pe_T, Tid. f_equal; field.
  - reflexivity.
  - intros. unfold det, ddet, pe_T; cbn. split; field.
  - intros d Hd. assert (Q : (match sdir s with Dfwd => 0 | _ => 0 end) = 0) by (destruct (sdir s); reflexivity).
    unfold T_solves_at, pe_T; cbn -[pow]. rewrite ?Q. repeat (split; [auto_derive; auto; cbn; try rewrite Q; field|]). auto_derive; auto; cbn; try rewrite Q; field.
Qed.
Lemma pe_step y : y1 (sprop_y pe_T 0 (mkSector 0 1 Dfwd [0]) 0 y 0 1 true) = y1 y /\ y0 (sprop_y pe_T 0 (mkSector 0 1 Dfwd [0]) 0 y 0 1 true) = y0 y + y1 y.
Proof.
  unfold sprop_y, sprop; cbn [smin smax sdir dir_eqb].
  assert (A : negb (Rleb 1 0 && Rleb 1 1 || Rleb 0 0 && Rleb 1 0) = true).
  { apply negb_true_iff, orb_false_iff. split; apply andb_false_iff; [left|right]; apply Rleb_false; lra. }
  rewrite A. assert (B : Rltb 0 0 = false) by (apply Rltb_false; lra). assert (C : Rltb 0 1 = true) by (apply Rltb_true; lra). rewrite B, C.
  unfold propagateDelta; cbn [sdir dir_eqb]. assert (D : Rleb 0 (1 - 0) = true) by (apply Rleb_true; lra). rewrite D.
  assert (G : Rltb (sh (mkSector 0 1 Dfwd [0])) (1 - 0) = false) by (apply Rltb_false; unfold sh; cbn; lra). rewrite G.
  cbn. split; ring.
Qed.
Lemma pe_mis v : vals (mis pe_T 0 pe_l 0 0 1 Mid 0 true v) = (snd v, 0).
Proof.
  destruct (LL_val pe_T 0 pe_l 0 0 1 pe_partition (Ho' _ pe_strict) ltac:(cbn; lia) 0 true (data v)) as [ta TA].
  destruct (RR_val pe_T 0 pe_l 0 0 1 pe_partition (Ho' _ pe_strict) ltac:(cbn; lia) 0 true (data (mapply Mid v))) as [tb TB].
  destruct (prop_vals pe_T 0 pe_l 0 1 0 pe_partition pe_strict 0 ltac:(cbn; lia) (data v) (data (mapply Mid v))) as (sm & t1 & t2 & Vm & P1 & P2).
  cbn in Vm. injection Vm as <-. cbn [smax] in P1, P2. cbn [matchpoint vget pe_l] in TA, TB. unfold matchpoint in TA, TB; cbn [vget pe_l] in TA, TB.
  change (match vget pe_l 0 with Ret s => smax s | _ => 0 end) with 1 in TA, TB.
  rewrite P1 in TA. rewrite P2 in TB. injection TA as TA _. injection TB as TB _.
  unfold vals, mis, ysub; cbn [y0 y1]. rewrite <- TA, <- TB.
  unfold yl, yr, Lf, Rf, pe_l; cbn [firstn skipn rev app fold_left smin smax].
  destruct (pe_step (data v)) as [-> ->]. unfold data, mapply, Mid; cbn. f_equal; ring.
Qed.
(** E = 0 is an eigenvalue (the matching determinant vanishes) with one-dimensional kernel spanned by
    (1, 1); whatever kernel vector c the eigenvalue solver returns, the function built by eigenfunction(E)
    is not periodic: it is a multiple of 1 + x. *)
Theorem C45_eigenfunction_refuted :
  (forall s, In s pe_l -> exact_propagator (fun (y : Y) (a b : R) => sprop_y pe_T 0 s 0 y a b true) (fun _ : R => 0) 0 (smin s) (smax s)) /\
  exists a b ths, periodicMatching pe_T 0 pe_l 0 0 1 Mid 0 true = Ret ([a; b], ths) /\ vals a = (1, 0) /\ vals b = (-1, 0) /\
  forall c c', c <> (0, 0) -> vals (ycomb [a; b] c) = (0, 0) ->
    exists bd, eigenfunction_boundaries [(0, c); (1, c')] = [bd] /\
    exists w w', eigenfunction_at pe_T 0 pe_l 0 0 0 1 (fst bd) (snd bd) 0 = Ret w /\
      eigenfunction_at pe_T 0 pe_l 0 0 0 1 (fst bd) (snd bd) 1 = Ret w' /\ w' <> mapply Mid w.
Proof.
  split; [exact pe_exact|].
  destruct (pm_val pe_T 0 pe_l 0 0 1 Mid pe_partition (Ho' _ pe_strict) ltac:(cbn; lia) 0 true) as [ths P].
  eexists _, _, ths. split; [exact P|]. rewrite !pe_mis. cbn [snd]. split; [reflexivity|]. split; [reflexivity|].
  intros c c' N Z. exists (data c, data c). split.
  { unfold eigenfunction_boundaries; cbn [filter fst].
    assert (A : Rltb 0 (1 / 10000) = true) by (apply Rltb_true; lra). assert (B : Rltb 1 (1 / 10000) = false) by (apply Rltb_false; lra). rewrite A, B. reflexivity. }
  cbn [fst snd].
  assert (CC : fst c = snd c).
  { destruct (mis_comb pe_T 0 pe_l 0 0 1 Mid 0 true c) as [C0 _]. pose proof (f_equal fst Z) as Z0. cbn [vals fst] in Z0. rewrite C0 in Z0.
    pose proof (f_equal fst (pe_mis (fst c + snd c, fst c - snd c))) as Q. cbn [vals fst snd] in Q. lra. }
  assert (NZ : snd c <> 0). { intros Q. apply N. rewrite (surjective_pairing c), CC, Q. reflexivity. }
  assert (HM : (0 < length pe_l)%nat) by (cbn; lia).
  set (left := data c). pose proof (norm_pos pe_T 0 pe_l 0 0 left left) as NP.
  set (k := cl pe_T 0 pe_l 0 0 left left). assert (Hk : 0 < k) by (unfold k, cl; apply Rdiv_lt_0_compat; lra).
  exists (k * fst c, k * snd c), (k * (fst c + snd c), k * snd c).
  split; [|split].
  - match goal with |- ?t = _ => change t with (eigenfunction_at pe_T 0 pe_l (Z.of_nat 0) 0 0 1 left left 0) end.
    rewrite (at_lo pe_T 0 pe_l 0 1 0 pe_partition pe_strict 0 HM left left).
    pose proof (efin_l pe_T 0 pe_l 0 0 HM left left pe_dirs 0 (mkSector 0 1 Dfwd [0]) 0 ltac:(lia) eq_refl) as W. change (Z.of_nat 0) with 0%Z in W. rewrite W. rewrite yp_min by (cbn; lra).
    fold k. unfold val2, yscale, Lf; cbn. f_equal. f_equal; ring.
  - match goal with |- ?t = _ => change t with (eigenfunction_at pe_T 0 pe_l (Z.of_nat 0) 0 0 1 left left 1) end.
    rewrite (at_hi pe_T 0 pe_l 0 1 0 pe_partition pe_strict 0 HM left left).
    replace (Z.of_nat (length pe_l) - 1)%Z with (Z.of_nat 0) by reflexivity.
    rewrite (efin_l pe_T 0 pe_l 0 0 HM left left pe_dirs 0 (mkSector 0 1 Dfwd [0]) 1 ltac:(lia) eq_refl).
    fold k. cbn [smin]. change (Lf pe_T 0 pe_l 0 left 0) with left. unfold val2, yscale; cbn [y0 y1]. destruct (pe_step left) as [-> ->]. unfold left, data; cbn. f_equal. f_equal; ring.
  - intros Q. pose proof (f_equal fst Q) as Q0. unfold mapply, Mid in Q0; cbn in Q0. assert (k * snd c = 0) by lra. apply Rmult_integral in H. lra.
Qed.
(** The hypotheses of C45_eigenpairs_partial hold for the same problem with the kernel vector (1, 1): the
    eigenpair functions are periodic (here: constant). *)
Example C45_case : exists w, w <> (0, 0) /\ eigenfunction_at pe_T 0 pe_l 0 0 0 1 (data (2, 0)) (data (2, 0)) 0 = Ret w /\
  eigenfunction_at pe_T 0 pe_l 0 0 0 1 (data (2, 0)) (data (2, 0)) 1 = Ret (mapply Mid w).
Proof.
  destruct (pm_val pe_T 0 pe_l 0 0 1 Mid pe_partition (Ho' _ pe_strict) ltac:(cbn; lia) 0 true) as [ths P].
  destruct (C45_eigenpairs_partial pe_T 0 pe_l 0 0 1 Mid 0 pe_partition pe_strict ltac:(cbn; lia) pe_dirs (fun s d _ => pe_det s d) _ _ false (1, 1) P) as [_ F].
  - split; [intros Q; injection Q; lra|]. destruct (mis_comb pe_T 0 pe_l 0 0 1 Mid 0 true (1, 1)) as [C0 C1]. unfold vals. rewrite C0, C1.
    pose proof (pe_mis (fst (1, 1) + snd (1, 1), fst (1, 1) - snd (1, 1))) as Q. unfold vals in Q. rewrite Q. cbn. f_equal. ring.
  - cbv beta iota zeta delta [boundaries] in F. inversion F as [|? ? (_ & G & _) _]; subst. cbn [fst snd] in G.
    assert (A : ycomb (periodicInitialValue Mid) (1, 1) = data (2, 0)) by (unfold ycomb, periodicInitialValue, initialColumn, mapply, Mid, data; cbn; f_equal; ring).
    rewrite <- A. exact G.
Qed.
Example C44_case : exists cols ths dd, periodicMatching pe_T 0 pe_l 0 0 1 Mid 0 true = Ret (cols, ths) /\ calculateMatchingError cols = Ret (0, dd).
Proof.
  destruct (C44_zero pe_T 0 pe_l 0 0 1 Mid pe_partition (Ho' _ pe_strict) ltac:(cbn; lia) 0 true) as (cols & ths & d & dd & P & C & Q).
  exists cols, ths, dd. split; auto. rewrite C. f_equal. f_equal. apply Q. exists (1, 0). split; [intros W; injection W; lra|].
  destruct (LL_val pe_T 0 pe_l 0 0 1 pe_partition (Ho' _ pe_strict) ltac:(cbn; lia) 0 true (data (1, 0))) as [ta TA].
  destruct (RR_val pe_T 0 pe_l 0 0 1 pe_partition (Ho' _ pe_strict) ltac:(cbn; lia) 0 true (data (mapply Mid (1, 0)))) as [tb TB].
  eexists _, _, ta, tb. split; [exact TA|]. split; [exact TB|].
  pose proof (pe_mis (1, 0)) as W. pose proof (f_equal fst W) as W0. pose proof (f_equal snd W) as W1. unfold vals, mis, ysub in W0, W1; cbn [fst snd y0 y1] in W0, W1. lra.
Qed.

Print Assumptions C42_terminates.
Print Assumptions C42_bracket.
Print Assumptions C42_inside.
Print Assumptions C42_zero.
Print Assumptions C43_results.
Print Assumptions C43_byIndex.
Print Assumptions C43_range.
Print Assumptions C43_total.
Print Assumptions C43_negative_diverges.
Print Assumptions C43_pair.
Print Assumptions C44_zero.
Print Assumptions C44_derivative.
Print Assumptions C45_eigenpairs_partial.
Print Assumptions C45_eigenfunction_refuted.
Print Assumptions C43_windows.
Print Assumptions C43_ground.
Print Assumptions C43_range_windows.
