(** C37 - C41: half-range problems. *)
From Coquelicot Require Import Coquelicot.
From Coq Require Import Floats String ZArith QArith Reals List Bool Lia Lra Permutation Sorted.
From Verif Require Import Base M_Sectors S_Sectors M_Core M_Search M_Half M_Eigen S_Eigen S_Core P_Eigen4 T_Eigen.
Import ListNotations.
Open Scope Z_scope.

(** ** C37 *)
Section Merge.
Context {A : Type}.
Implicit Types e o : list (Z * A).
Definition as_even (p : Z * A) := (2 * fst p, snd p).
Definition as_odd (p : Z * A) := (2 * fst p + 1, snd p).
Lemma merge_nil_l o : merge [] o = map as_odd o.
Proof. induction o as [|b o IH]; [reflexivity|]. cbn [map]. rewrite <- IH. reflexivity. Qed.
Lemma merge_nil_r e : merge e [] = map as_even e.
Proof. induction e as [|a e IH]; [reflexivity|]. cbn [map]. rewrite <- IH. reflexivity. Qed.
Lemma merge_cons a e b o : merge (a :: e) (b :: o) =
  if fst b <? fst a then as_odd b :: merge (a :: e) o else as_even a :: merge e (b :: o).
Proof. reflexivity. Qed.
(** Nothing is lost or invented: the result is a rearrangement of all even results with index 2k and
    all odd results with index 2k+1, energies unchanged. *)
Theorem C37_content e o :
  Permutation (merge e o) (map (fun p => (2 * fst p, snd p)) e ++ map (fun p => (2 * fst p + 1, snd p)) o).
Proof.
  change (Permutation (merge e o) (map as_even e ++ map as_odd o)).
  revert o. induction e as [|a e IHe]; intros o; [rewrite merge_nil_l; reflexivity|].
  induction o as [|b o IHo]; [rewrite merge_nil_r, app_nil_r; reflexivity|].
  rewrite merge_cons. destruct (fst b <? fst a).
  - rewrite IHo. cbn [map]. apply Permutation_middle.
  - rewrite IHe. reflexivity.
Qed.
Lemma pair_eq (a b : Z) (x y : A) : (a, x) = (b, y) -> a = b /\ x = y.
Proof. intros Q. split; [exact (f_equal fst Q)|exact (f_equal snd Q)]. Qed.
Theorem C37_even_index e o k E : In (2 * k, E) (merge e o) <-> In (k, E) e.
Proof.
  rewrite (Permutation_in' eq_refl (C37_content e o)). rewrite in_app_iff, !in_map_iff. split.
  - intros [((k', E') & Q & I)|((k', E') & Q & I)]; cbn [fst snd] in Q; apply pair_eq in Q; destruct Q as [Q1 ->].
    + replace k with k' by lia. auto.
    + lia.
  - intros I. left. exists (k, E). auto.
Qed.
Theorem C37_odd_index e o k E : In (2 * k + 1, E) (merge e o) <-> In (k, E) o.
Proof.
  rewrite (Permutation_in' eq_refl (C37_content e o)). rewrite in_app_iff, !in_map_iff. split.
  - intros [((k', E') & Q & I)|((k', E') & Q & I)]; cbn [fst snd] in Q; apply pair_eq in Q; destruct Q as [Q1 ->].
    + lia.
    + replace k with k' by lia. auto.
  - intros I. right. exists (k, E). auto.
Qed.
Lemma merge_forall (P : Z * A -> Prop) e o : Forall (fun p => P (as_even p)) e -> Forall (fun p => P (as_odd p)) o -> Forall P (merge e o).
Proof.
  intros Fe Fo. eapply Permutation_Forall; [symmetry; apply (C37_content e o)|]. apply Forall_app. split; apply Forall_map; assumption.
Qed.
(** Sorted by index when the inputs are (strictly, resp. weakly). *)
Theorem C37_sorted_strict e o : StronglySorted (fun a b => fst a < fst b) e -> StronglySorted (fun a b => fst a < fst b) o ->
  StronglySorted (fun a b => fst a < fst b) (merge e o).
Proof.
  revert o. induction e as [|a e IHe]; intros o He Ho.
  - rewrite merge_nil_l. clear He. induction Ho as [|b o Ho IH F]; cbn [map]; constructor; auto. apply Forall_map.
    eapply Forall_impl; [|exact F]. unfold as_odd; cbn [fst]. intros; lia.
  - inversion He as [|? ? He' Fa]; subst. induction Ho as [|b o Ho IH F].
    + rewrite merge_nil_r. clear IHe He' Fa. induction He as [|? ? He2 IH F]; cbn [map]; [constructor|].
      constructor; [exact IH|]; apply Forall_map; eapply Forall_impl; [|exact F]; unfold as_even; cbn [fst]; intros; lia.
    + rewrite merge_cons. destruct (Z.ltb_spec (fst b) (fst a)).
      * constructor; [exact IH|]. apply merge_forall; [constructor|]; unfold as_even, as_odd; cbn [fst].
        { lia. }
        { eapply Forall_impl; [|exact Fa]. cbn beta. intros; lia. }
        { eapply Forall_impl; [|exact F]. cbn beta. intros; lia. }
      * constructor; [apply IHe; auto; constructor; auto|]. apply merge_forall; [|constructor]; unfold as_even, as_odd; cbn [fst].
        { eapply Forall_impl; [|exact Fa]. cbn beta. intros; lia. }
        { lia. }
        { eapply Forall_impl; [|exact F]. cbn beta. intros; lia. }
Qed.
Theorem C37_sorted e o : StronglySorted (fun a b => fst a <= fst b) e -> StronglySorted (fun a b => fst a <= fst b) o ->
  StronglySorted (fun a b => fst a <= fst b) (merge e o).
Proof.
  revert o. induction e as [|a e IHe]; intros o He Ho.
  - rewrite merge_nil_l. clear He. induction Ho as [|b o Ho IH F]; cbn [map]; constructor; auto. apply Forall_map.
    eapply Forall_impl; [|exact F]. unfold as_odd; cbn [fst]. intros; lia.
  - inversion He as [|? ? He' Fa]; subst. induction Ho as [|b o Ho IH F].
    + rewrite merge_nil_r. clear IHe He' Fa. induction He as [|? ? He2 IH F]; cbn [map]; [constructor|].
      constructor; [exact IH|]; apply Forall_map; eapply Forall_impl; [|exact F]; unfold as_even; cbn [fst]; intros; lia.
    + rewrite merge_cons. destruct (Z.ltb_spec (fst b) (fst a)).
      * constructor; [exact IH|]. apply merge_forall; [constructor|]; unfold as_even, as_odd; cbn [fst].
        { lia. }
        { eapply Forall_impl; [|exact Fa]. cbn beta. intros; lia. }
        { eapply Forall_impl; [|exact F]. cbn beta. intros; lia. }
      * constructor; [apply IHe; auto; constructor; auto|]. apply merge_forall; [|constructor]; unfold as_even, as_odd; cbn [fst].
        { eapply Forall_impl; [|exact Fa]. cbn beta. intros; lia. }
        { lia. }
        { eapply Forall_impl; [|exact F]. cbn beta. intros; lia. }
Qed.
End Merge.

Example C37_case : merge [(0, 1%Q); (1, 9%Q)] [(0, 4%Q); (1, 16%Q); (2, 36%Q)] = [(0, 1%Q); (1, 4%Q); (2, 9%Q); (3, 16%Q); (5, 36%Q)]
  /\ StronglySorted (fun a b => fst a < fst b) [(0, 1%Q); (1, 9%Q)].
Proof. split; [reflexivity|]. repeat constructor. Qed.

(** ** C38 *)
(** Imin, Imin+1, .., Imax-1 *)
Definition range (a b : Z) : list Z := map (fun n => a + Z.of_nat n) (seq 0 (Z.to_nat (b - a))).
Lemma range_In a b k : In k (range a b) <-> a <= k < b.
Proof.
  unfold range. rewrite in_map_iff. split.
  - intros (n & <- & I). apply in_seq in I. lia.
  - intros K. exists (Z.to_nat (k - a)). split; [lia|]. apply in_seq. lia.
Qed.
Lemma seq_sorted c n : forall s, StronglySorted Z.lt (map (fun n => c + Z.of_nat n) (seq s n)).
Proof.
  induction n as [|n IH]; intros s; cbn [seq map]; constructor; auto. apply Forall_map, Forall_forall. intros k I. apply in_seq in I. lia.
Qed.
Lemma range_sorted a b : StronglySorted Z.lt (range a b).
Proof. apply seq_sorted. Qed.
Lemma sorted_ext (l l' : list Z) : StronglySorted Z.lt l -> StronglySorted Z.lt l' -> (forall x, In x l <-> In x l') -> l = l'.
Proof.
  intros S. revert l'. induction S as [|a l S IH F]; intros l' S' K.
  - destruct l' as [|b l']; [reflexivity|]. exfalso. apply (K b). cbn; auto.
  - destruct S' as [|b l' S' F']; [exfalso; apply (K a); cbn; auto|].
    rewrite Forall_forall in F, F'.
    assert (a = b).
    { destruct (proj1 (K a) (or_introl eq_refl)) as [|I]; auto. destruct (proj2 (K b) (or_introl eq_refl)) as [|J]; auto.
      specialize (F b J). specialize (F' a I). lia. }
    subst b. f_equal. apply IH; auto. intros x. split; intros I.
    + destruct (proj1 (K x) (or_intror I)) as [<-|]; auto. specialize (F a I). lia.
    + destruct (proj2 (K x) (or_intror I)) as [<-|]; auto. specialize (F' a I). lia.
Qed.
Lemma sorted_map {A} (l : list (Z * A)) : StronglySorted Z.lt (map fst l) <-> StronglySorted (fun a b => fst a < fst b) l.
Proof.
  induction l as [|a l IH]; cbn [map]; split; intros S; try constructor; inversion S as [|? ? S' F]; subst.
  - apply IH; auto.
  - exact (proj1 (Forall_map fst (fun x => fst a < x) l) F).
  - apply IH; auto.
  - apply Forall_map. exact F.
Qed.
(** If the half problem answers index queries correctly (index k of the Neumann, resp. Dirichlet problem
    at energy E is described by [P side k E]), the symmetric problem returns exactly the requested
    indices in order, index 2k from the Neumann problem and 2k+1 from the Dirichlet one. *)
Theorem C38_indices {A Side} (neumann dirichlet : Side) (query : Side -> Z -> Z -> res (list (Z * A))) (P : Side -> Z -> A -> Prop) Imin Imax :
  0 <= Imin <= Imax ->
  (forall side a b, 0 <= a <= b -> exists l, query side a b = Ret l /\ map fst l = range a b /\ Forall (fun p => P side (fst p) (snd p)) l) ->
  exists l, half_byIndex neumann dirichlet query Imin Imax = Ret l /\ map fst l = range Imin Imax /\
    Forall (fun p => exists k, fst p = 2 * k /\ P neumann k (snd p) \/ fst p = 2 * k + 1 /\ P dirichlet k (snd p)) l.
Proof.
  intros Hi Q. unfold half_byIndex.
  assert (D : forall x, 0 <= x -> x = 2 * Z.quot x 2 + Z.rem x 2 /\ 0 <= Z.rem x 2 < 2 /\ 0 <= Z.quot x 2).
  { intros x Hx. split; [apply Z.quot_rem'|]. split; [apply Z.rem_bound_pos; lia|apply Z.quot_pos; lia]. }
  destruct (D Imin) as (A1 & A2 & A3); [lia|]. destruct (D Imax) as (B1 & B2 & B3); [lia|].
  destruct (Q neumann (Z.quot Imin 2 + Z.rem Imin 2) (Z.quot Imax 2 + Z.rem Imax 2)) as (e & -> & Re & Pe); [lia|]. cbn [bind].
  destruct (Q dirichlet (Z.quot Imin 2) (Z.quot Imax 2)) as (o & -> & Ro & Po); [lia|]. cbn [bind].
  eexists. split; [reflexivity|]. split.
  - apply sorted_ext.
    + apply sorted_map. apply C37_sorted_strict; apply sorted_map; [rewrite Re|rewrite Ro]; apply range_sorted.
    + apply range_sorted.
    + intros x. rewrite range_In. rewrite in_map_iff.
      assert (Ie : forall k, In k (map fst e) <-> Z.quot Imin 2 + Z.rem Imin 2 <= k < Z.quot Imax 2 + Z.rem Imax 2) by (intros; rewrite Re; apply range_In).
      assert (Io : forall k, In k (map fst o) <-> Z.quot Imin 2 <= k < Z.quot Imax 2) by (intros; rewrite Ro; apply range_In).
      split.
      * intros ((y & E) & <- & I). cbn [fst]. rewrite (Permutation_in' eq_refl (C37_content e o)), in_app_iff, !in_map_iff in I.
        destruct I as [((k & E') & K & I)|((k & E') & K & I)]; cbn [fst snd] in K; apply pair_eq in K; destruct K as [<- ->]; apply (in_map fst) in I; cbn [fst] in I.
        { apply Ie in I. lia. }
        { apply Io in I. lia. }
      * intros Hx. destruct (Z.Even_or_Odd x) as [[k ->]|[k ->]].
        { assert (I : In k (map fst e)) by (apply Ie; lia). apply in_map_iff in I. destruct I as ((k' & E) & <- & I). exists (2 * k', E). split; auto. apply C37_even_index; auto. }
        { assert (I : In k (map fst o)) by (apply Io; lia). apply in_map_iff in I. destruct I as ((k' & E) & <- & I). exists (2 * k' + 1, E). split; auto. apply C37_odd_index; auto. }
  - rewrite Forall_forall in Pe, Po. apply merge_forall; apply Forall_forall; intros (k & E) I; exists k; [left; split; [reflexivity|apply (Pe _ I)]|right; split; [reflexivity|apply (Po _ I)]].
Qed.
Example C38_case : half_byIndex true false (fun n a b => Ret (map (fun k => (k, (if n then 2 * k else 2 * k + 1) * 10)) (range a b))) 1 6
  = Ret [(1, 10); (2, 20); (3, 30); (4, 40); (5, 50)].
Proof. reflexivity. Qed.

(** ** C39 : any scalar type; the points are not NaN *)
Section Eval.
Context {T : Type} `{OL : OrderLaws T}.
Variables (rhalf : T) (f : T -> T * T) (fN : list T -> res (list (T * T))) (even : bool).
(** array evaluation of the half problem's eigenfunction is pointwise evaluation (see C36) *)
Hypothesis HfN : forall xs, fN xs = Ret (map f xs).
Notation zero := (sofZ 0).
(** no element exceeds its successor *)
Definition nondecreasing (xs : list T) : Prop := forall i x y, nth_error xs i = Some x -> nth_error xs (S i) = Some y -> slt y x = false.
Lemma unsorted_spec xs : unsorted xs = false <-> nondecreasing xs.
Proof using.
  clear. induction xs as [|x [|y r] IH].
  - split; auto. intros _ [|i] ? ? K; discriminate.
  - split; auto. intros _ [|i] ? ? K K'; cbn in K'; [discriminate|destruct i; discriminate].
  - change (unsorted (x :: y :: r)) with (slt y x || unsorted (y :: r)). rewrite orb_false_iff, IH. split.
    + intros [A B] [|i] a b K K'; cbn in K, K'; [congruence|]. eapply (B i); eauto.
    + intros K. split; [apply (K 0%nat); reflexivity|]. intros i a b A B. apply (K (S i)); auto.
Qed.
Theorem C39_throws xs : (exists msg, half_array rhalf fN even xs = Throw msg) <-> ~ nondecreasing xs.
Proof using HfN.
  unfold half_array. rewrite <- unsorted_spec. destruct (unsorted xs).
  - split; [intros _; discriminate|eauto].
  - rewrite !HfN. cbn [bind]. split; [intros [m K]; discriminate|intros K; exfalso; apply K; reflexivity].
Qed.
(** the value at one point *)
Definition reflect (x : T) : T * T :=
  if slt x zero then
    let fac := smul (if even then sofZ 1 else sofZ (-1)) rhalf in
    (smul (fst (f (sopp x))) fac, smul (smul (snd (f (sopp x))) fac) (sofZ (-1)))
  else (smul (fst (f x)) rhalf, smul (snd (f x)) rhalf).
Lemma neg_from xs : nondecreasing xs -> (forall x, In x xs -> ok x) -> forall i acc,
  exists n, (n <= length xs)%nat /\ negatives_from i xs acc = (if (n =? 0)%nat then acc else i + Z.of_nat n) /\
    Forall (fun x => slt x zero = true) (firstn n xs) /\ Forall (fun x => slt x zero = false) (skipn n xs).
Proof using OL.
  clear HfN fN f. induction xs as [|x xs IH]; intros Sx Ok i acc.
  - exists 0%nat. cbn. split; [lia|]. split; auto.
  - assert (Sx' : nondecreasing xs) by (intros k a b A B; apply (Sx (S k)); auto).
    destruct (IH Sx' (fun y I => Ok y (or_intror I)) (i + 1) (if slt x zero then i + 1 else acc)) as (n & Hn & En & F1 & F2).
    cbn [negatives_from]. rewrite En. destruct (slt x zero) eqn:Lx.
    + exists (S n). cbn [Nat.eqb length firstn skipn]. split; [lia|]. split; [destruct (n =? 0)%nat eqn:Z0; [apply Nat.eqb_eq in Z0; lia|lia]|]. split; auto.
    + exists 0%nat. cbn [firstn skipn length Nat.eqb].
      assert (n = 0)%nat.
      { destruct n as [|n]; auto. exfalso. destruct xs as [|y xs]; [cbn in Hn; lia|]. cbn [firstn] in F1. inversion F1 as [|? ? Ly _]; subst.
        pose proof (Sx 0%nat x y eq_refl eq_refl) as K.
        assert (Q : sle x y = true) by (apply nlt_le; auto; apply Ok; cbn; auto).
        assert (sle zero x = true). { apply nlt_le; auto; [apply Ok; cbn; auto|eapply ok_lt_r; eauto]. }
        pose proof (le_trans_s _ _ _ H0 Q) as W. rewrite (lt_nle _ _ Ly) in W. discriminate. }
      subst n. cbn [Nat.eqb]. split; [lia|]. split; auto.
Qed.
(** sorted arrays: the results come in the order of the points, each reflected as its sign says *)
Theorem C39_array xs : nondecreasing xs -> (forall x, In x xs -> ok x) -> half_array rhalf fN even xs = Ret (map reflect xs).
Proof using OL HfN.
  intros Sx Ok. unfold half_array. rewrite (proj2 (unsorted_spec xs) Sx). rewrite !HfN. cbn [bind]. f_equal.
  destruct (neg_from xs Sx Ok 0 0) as (n & Hn & En & F1 & F2). unfold negatives. rewrite En.
  replace (Z.to_nat (if (n =? 0)%nat then 0 else 0 + Z.of_nat n)) with n by (destruct (Nat.eqb_spec n 0); lia).
  rewrite <- (firstn_skipn n xs) at 3. rewrite map_app. f_equal.
  - rewrite <- !map_rev, rev_involutive, !map_map. apply map_ext_in. intros x I. rewrite Forall_forall in F1. unfold reflect. rewrite (F1 x I). reflexivity.
  - rewrite map_map. apply map_ext_in. intros x I. rewrite Forall_forall in F2. unfold reflect. rewrite (F2 x I). reflexivity.
Qed.
End Eval.
(** A NaN hides an unsorted array (5, NaN, -1): the check passes and the point 5 is evaluated at -5. *)
Example C39_nan (f : float -> float * float) :
  half_array 1%float (fun xs => Ret (map f xs)) true [5%float; nan; (-1)%float] =
  Ret (map (fun x => (fst (f (- x)%float) * (1 * 1), snd (f (- x)%float) * (1 * 1) * -1)%float) [5%float; nan; (-1)%float]).
Proof. reflexivity. Qed.

Open Scope R_scope.
Section Real.
Variables (f : R -> R * R) (even : bool).
Notation g := (reflect (sqrt (1 / 2)) f even).
Definition sigma : R := if even then 1 else -1.
Lemma reflect_neg x : x < 0 -> g x = (sqrt (1 / 2) * sigma * fst (f (- x)), - (sqrt (1 / 2) * sigma * snd (f (- x)))).
Proof.
  intros Hx. unfold reflect. change (slt x (sofZ 0)) with (Rltb x 0). rewrite (proj2 (Rltb_true x 0) Hx).
  unfold sigma. unfold smul, sopp, sofZ; cbn -[sqrt]. destruct even; f_equal; ring.
Qed.
Lemma reflect_pos x : 0 <= x -> g x = (sqrt (1 / 2) * fst (f x), sqrt (1 / 2) * snd (f x)).
Proof.
  intros Hx. unfold reflect. change (slt x (sofZ 0)) with (Rltb x 0). rewrite (proj2 (Rltb_false x 0) Hx).
  unfold smul; cbn -[sqrt]. f_equal; ring.
Qed.
(** f(-x) = +-f(x), f'(-x) = -+f'(x): for every point, given the half problem's condition at 0. *)
Theorem C39_symmetry x : (if even then snd (f 0) = 0 else fst (f 0) = 0) ->
  fst (g (- x)) = sigma * fst (g x) /\ snd (g (- x)) = - sigma * snd (g x).
Proof.
  intros B. destruct (Rtotal_order x 0) as [L|[->|L]].
  - rewrite (reflect_neg x) by auto. rewrite reflect_pos by lra. cbn [fst snd]. unfold sigma. destruct even; split; ring.
  - rewrite Ropp_0. rewrite (reflect_pos 0) by lra. cbn [fst snd]. unfold sigma. destruct even; rewrite B; split; ring.
  - rewrite (reflect_neg (- x)) by lra. rewrite (reflect_pos x) by lra. cbn [fst snd]. rewrite Ropp_involutive. unfold sigma. destruct even; split; ring.
Qed.
(** The factor sqrt(1/2) turns unit norm on [0, xmax] into unit norm on [-xmax, xmax]. *)
Theorem C39_unit_norm xmax : 0 < xmax -> is_RInt (fun x => fst (f x) * fst (f x)) 0 xmax 1 ->
  is_RInt (fun x => fst (g x) * fst (g x)) (- xmax) xmax 1.
Proof.
  intros Hx I. assert (SS : sqrt (1 / 2) * sqrt (1 / 2) = 1 / 2) by (apply sqrt_sqrt; lra).
  assert (S2 : sigma * sigma = 1) by (unfold sigma; destruct even; ring).
  pose proof (is_RInt_Chasles (V := R_NormedModule) (fun x => fst (g x) * fst (g x)) (- xmax) 0 xmax (1 / 2) (1 / 2)) as CH.
  change (@plus R_NormedModule (1 / 2) (1 / 2)) with (1 / 2 + 1 / 2) in CH. replace (1 / 2 + 1 / 2) with 1 in CH by lra. apply CH; clear CH.
  - assert (I' : is_RInt (fun y => scal (-1) (1 / 2 * (fst (f (-1 * y + 0)) * fst (f (-1 * y + 0))))) (- xmax) 0 (1 / 2 * - 1)).
    { apply (is_RInt_comp_lin (fun y => 1 / 2 * (fst (f y) * fst (f y))) (-1) 0 (- xmax) 0).
      replace (-1 * - xmax + 0) with xmax by ring. replace (-1 * 0 + 0) with 0 by ring.
      apply is_RInt_swap in I. apply (is_RInt_scal _ _ _ (1 / 2)) in I. exact I. }
    apply (is_RInt_scal _ _ _ (-1)) in I'. change (scal (-1) (1 / 2 * - 1)) with (-1 * (1 / 2 * - 1)) in I'. replace (-1 * (1 / 2 * - 1)) with (1 / 2) in I' by lra.
    eapply is_RInt_ext; [|exact I']. intros x H. cbn beta. rewrite Rmin_left, Rmax_right in H by lra. rewrite reflect_neg by lra. cbn [fst].
    replace (-1 * x + 0) with (- x) by ring. unfold scal; cbn. unfold mult; cbn.
    transitivity (1 / 2 * (fst (f (- x)) * fst (f (- x)))); [match goal with |- ?a = ?b => change (@eq R a b) end; ring|].
    transitivity (sqrt (1 / 2) * sqrt (1 / 2) * (sigma * sigma) * (fst (f (- x)) * fst (f (- x)))); [rewrite SS, S2; match goal with |- ?a = ?b => change (@eq R a b) end; ring|].
    match goal with |- ?a = ?b => change (@eq R a b) end. ring.
  - apply (is_RInt_scal _ _ _ (1 / 2)) in I. change (scal (1 / 2) 1) with (1 / 2 * 1) in I. replace (1 / 2 * 1) with (1 / 2) in I by lra.
    eapply is_RInt_ext; [|exact I]. intros x H. cbn beta. rewrite Rmin_left, Rmax_right in H by lra. rewrite reflect_pos by lra. cbn [fst].
    match goal with |- scal _ ?a = ?b => change (1 / 2 * a = b) end. rewrite <- SS at 1. ring.
Qed.

(** ** C40 *)
Variable f1 : R -> res (R * R).
Hypothesis Hf1 : forall x, f1 x = Ret (f x).
Variable fN : list R -> res (list (R * R)).
Hypothesis HfN : forall xs, fN xs = Ret (map f xs).
(** what the array call gives for one point *)
Lemma array_one x : half_array (sqrt (1 / 2)) fN even [x] = Ret [g x].
Proof.
  apply (C39_array (sqrt (1 / 2)) f fN even HfN [x]).
  - intros [|i] a b A B; cbn in B; [discriminate|destruct i; discriminate].
  - intros; exact I.
Qed.
(** Function values and, for x >= 0, derivatives agree. *)
Theorem C40_value_partial x : exists v d, half_scalar (sqrt (1 / 2)) f1 even x = Ret (v, d) /\
  half_array (sqrt (1 / 2)) fN even [x] = Ret [g x] /\ v = fst (g x) /\ (0 <= x -> d = snd (g x)).
Proof.
  unfold half_scalar. rewrite Hf1, array_one. cbn [bind]. change (slt x (sofZ 0)) with (Rltb x 0).
  destruct (Rltb x 0) eqn:L; [apply Rltb_true in L|apply Rltb_false in L].
  - destruct even eqn:Ev; cbn [negb andb]; eexists; eexists; (split; [reflexivity|]); (split; [rewrite <- Ev; reflexivity|]); (split; [|lra]);
      rewrite <- Ev; rewrite reflect_neg by lra; unfold sigma; rewrite Ev; unfold smul, sopp, sofZ; cbn -[sqrt]; ring.
  - cbn [negb andb]. eexists; eexists; split; [reflexivity|]. split; [reflexivity|]. rewrite reflect_pos by lra. unfold smul; cbn -[sqrt]. split; intros; ring.
Qed.
(** For x < 0 the pointwise derivative has the opposite sign of the array one. *)
Theorem C40_derivative_refuted x : x < 0 -> snd (f (- x)) <> 0 ->
  half_array (sqrt (1 / 2)) fN even [x] = Ret [g x] /\
  half_scalar (sqrt (1 / 2)) f1 even x = Ret (fst (g x), - snd (g x)) /\
  half_scalar (sqrt (1 / 2)) f1 even x <> Ret (g x).
Proof.
  intros L N. assert (Q : half_scalar (sqrt (1 / 2)) f1 even x = Ret (fst (g x), - snd (g x))).
  { unfold half_scalar. rewrite Hf1. cbn [bind]. change (slt x (sofZ 0)) with (Rltb x 0). rewrite (proj2 (Rltb_true x 0) L).
    rewrite reflect_neg by lra. unfold sigma. destruct even; cbn [negb andb fst snd]; f_equal; unfold smul, sopp, sofZ; cbn -[sqrt]; f_equal; ring. }
  split; [apply array_one|]. split; [exact Q|]. rewrite Q. intros K.
  assert (K2 : - snd (g x) = snd (g x)). { assert (forall a b : R * R, Ret a = Ret b -> snd a = snd b) by (intros; congruence). apply (H _ _ K). }
  rewrite reflect_neg in K2 by lra. cbn [snd] in K2.
  assert (0 < sqrt (1 / 2)) by (apply sqrt_lt_R0; lra). assert (sigma <> 0) by (unfold sigma; destruct even; lra).
  assert (sqrt (1 / 2) * sigma * snd (f (- x)) <> 0) by (repeat apply Rmult_integral_contrapositive_currified; auto; lra). lra.
Qed.
End Real.
Example C40_case : snd ((fun x => (cos x, - sin x)) (- -1)) <> 0.
Proof. cbn. replace (- -1) with 1 by ring. pose proof PI2_1. assert (0 < sin 1) by (apply sin_gt_0; lra). lra. Qed.
Example C39_symmetric_case : (if true then snd ((fun x : R => (cos x, - sin x)) 0) = 0 else fst ((fun x : R => (cos x, - sin x)) 0) = 0).
Proof. cbn. rewrite sin_0. ring. Qed.

(** ** C41 *)
Lemma Yneq_spec a b : Yneq a b = false <-> a = b.
Proof.
  unfold Yneq. rewrite negb_false_iff, !andb_true_iff, !Reqb_true. destruct a, b; cbn. split.
  - intros [[[-> ->] ->] ->]. reflexivity.
  - intros K. injection K as -> -> -> ->. auto.
Qed.
Lemma call_one_some {Side Res} neq (two : option (Side -> Side -> res Res)) one k r : call_one neq two (Some one) k r = one r.
Proof. destruct k; reflexivity. Qed.
Lemma call_two_some {Side Res} neq (two : Side -> Side -> res Res) one k l r : call_two neq (Some two) one k l r = two l r.
Proof. destruct k; reflexivity. Qed.
Lemma call_two_none {Side Res} neq one k (l r : Side) : call_two (Res := Res) neq None one (S k) l r =
  if neq l r then Throw "Halfrange::checkSymmetry(), left and right sides have to be identical" else call_one neq None one k r.
Proof. reflexivity. Qed.
Lemma call_one_none {Side Res} neq two k (r : Side) : call_one (Res := Res) neq two None (S k) r = call_two neq two None k r r.
Proof. reflexivity. Qed.
(** A class overriding only the one-sided method (MatsliseHalf): two-sided calls. *)
Theorem C41_symmetric {Res} (one : Y -> res Res) l r fuel : (1 <= fuel)%nat ->
  ((exists msg, call_two Yneq None (Some one) fuel l r = Throw msg /\ (forall msg', one r <> Throw msg')) -> l <> r) /\
  (l <> r -> exists msg, call_two Yneq None (Some one) fuel l r = Throw msg) /\
  (l = r -> call_two Yneq None (Some one) fuel l r = one r) /\
  call_one Yneq None (Some one) fuel r = one r.
Proof.
  intros Hf. destruct fuel as [|k]; [lia|]. rewrite call_two_none, !call_one_some.
  destruct (Yneq l r) eqn:N.
  - assert (NE : l <> r) by (intros K; apply Yneq_spec in K; congruence). split; [auto|]. split; [eauto|]. split; [intros; congruence|auto].
  - apply Yneq_spec in N. split; [|split; [congruence|split; auto]].
    intros (msg & K & K'). exfalso. apply (K' msg K).
Qed.
(** A class overriding only the two-sided method (Matslise): one-sided calls. *)
Theorem C41_general {Res} (two : Y -> Y -> res Res) l r fuel : (1 <= fuel)%nat ->
  call_two Yneq (Some two) None fuel l r = two l r /\ call_one Yneq (Some two) None fuel l = two l l.
Proof. intros Hf. destruct fuel as [|k]; [lia|]. rewrite call_one_none, !call_two_some. auto. Qed.
(** Whatever is overridden, two nested calls are enough as long as something is. *)
Theorem C41_no_recursion {Side Res} (neq : Side -> Side -> bool) (two : option (Side -> Side -> res Res)) (one : option (Side -> res Res)) l r s fuel fuel' :
  (two <> None \/ one <> None) -> (1 <= fuel)%nat -> (1 <= fuel')%nat ->
  call_two neq two one fuel l r = call_two neq two one fuel' l r /\ call_one neq two one fuel s = call_one neq two one fuel' s.
Proof.
  intros N Hf Hf'. destruct fuel as [|k]; [lia|]. destruct fuel' as [|k']; [lia|].
  destruct two as [t|], one as [o|].
  - rewrite !call_two_some, !call_one_some. auto.
  - rewrite !call_one_none, !call_two_some. auto.
  - rewrite !call_two_none, !call_one_some. auto.
  - destruct N; congruence.
Qed.
(** eigenpairsByIndex on a symmetric problem: throws exactly when the sides differ (and the one-sided
    queries do not); otherwise one eigenfunction per eigenvalue, asked for with its own index. *)
Theorem C41_eigenpairs {A F} (byIndex : Y -> res (list (Z * A))) (ef : A -> Z -> Y -> res F) l r fuel : (1 <= fuel)%nat ->
  let two_idx := call_two Yneq None (Some byIndex) fuel in
  let two_ef := fun E l r k => call_two Yneq None (Some (ef E k)) fuel l r in
  (l <> r -> exists msg, eigenpairsByIndex two_idx two_ef l r = Throw msg) /\
  (l = r -> forall evs, byIndex r = Ret evs -> (forall p, In p evs -> exists h, ef (snd p) (fst p) r = Ret h) ->
     exists out, eigenpairsByIndex two_idx two_ef l r = Ret out /\
       Forall2 (fun p o => fst o = p /\ ef (snd p) (fst p) r = Ret (snd o)) evs out).
Proof.
  intros Hf two_idx two_ef. split.
  - intros N. destruct (proj1 (proj2 (C41_symmetric byIndex l r fuel Hf)) N) as [m K]. exists m. unfold eigenpairsByIndex, two_idx. rewrite K. reflexivity.
  - intros -> evs Ev Ef. unfold eigenpairsByIndex, two_idx.
    rewrite (proj1 (proj2 (proj2 (C41_symmetric byIndex r r fuel Hf))) eq_refl). rewrite Ev. cbn [bind].
    clear Ev two_idx. induction evs as [|p evs IH]; cbn [mapM].
    + exists []. split; [reflexivity|constructor].
    + unfold two_ef at 1. rewrite (proj1 (proj2 (proj2 (C41_symmetric (ef (snd p) (fst p)) r r fuel Hf))) eq_refl).
      destruct (Ef p (or_introl eq_refl)) as [h Eh]. rewrite Eh. cbn [bind].
      destruct IH as (out & -> & Fo); [intros q I; apply Ef; cbn; auto|]. cbn [bind]. eexists. split; [reflexivity|]. constructor; auto. cbn [fst snd]. split; auto. destruct p; reflexivity.
Qed.
(** The parity used for the eigenfunction of index k >= 0 is that of k. *)
Theorem C41_parity (errN errD : R) k : (0 <= k)%Z -> isEven errN errD k = Z.even k.
Proof.
  intros Hk. unfold isEven. destruct (Z.eqb_spec k (-1)); [lia|]. rewrite Z.rem_mod_nonneg by lia. rewrite Zmod_even. destruct (Z.even k); reflexivity.
Qed.

Print Assumptions C37_content.
Print Assumptions C37_even_index.
Print Assumptions C37_odd_index.
Print Assumptions C37_sorted.
Print Assumptions C37_sorted_strict.
Print Assumptions C38_indices.
Print Assumptions C39_throws.
Print Assumptions C39_array.
Print Assumptions C39_symmetry.
Print Assumptions C39_unit_norm.
Print Assumptions C40_value_partial.
Print Assumptions C40_derivative_refuted.
Print Assumptions C41_symmetric.
Print Assumptions C41_general.
Print Assumptions C41_no_recursion.
Print Assumptions C41_eigenpairs.
Print Assumptions C41_parity.
