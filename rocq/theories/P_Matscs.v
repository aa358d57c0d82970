(** Proofs about coupled problems. *)
From Coq Require Import String Reals ZArith List Bool Lia Lra.
From Coq Require Import ssrbool.
From mathcomp Require Import ssralg matrix.
From Verif Require Import Base M_Sectors S_Sectors P_Lookup M_Matscs.
Import ListNotations.
Open Scope R_scope.

(** Consecutive sectors from i to j, upwards or downwards. *)
Definition path {A : Type} (l : list A) (i j : nat) : list A :=
  if (i <=? j)%nat then firstn (j - i + 1) (skipn i l) else rev (firstn (i - j + 1) (skipn j l)).

Section Visit.
Context {P : Type}.
Notation sec := (sector R P).

Lemma mcontains_R (s : sec) p : contains s p = true <-> smin s <= p <= smax s.
Proof. unfold contains; simpl. rewrite andb_true_iff, !Rleb_true. lra. Qed.

Fixpoint visit (fuel : nat) (l : list sec) (a b : R) (idx : Z) : res (list sec) :=
  match fuel with
  | O => Fuel
  | S f =>
      do s <- vget l idx;
      if contains s b then Ret [s]
      else
        let idx := (idx + (if Rltb a b then 1 else -1))%Z in
        if ((0 <=? idx) && (idx <? Z.of_nat (length l)))%Z then do r <- visit f l a b idx; Ret (s :: r)
        else Ret [s]
  end.
Lemma loop_visit {St} (step : sec -> St -> St) fuel l a b idx st :
  sec_loop step fuel l a b idx st = do ss <- visit fuel l a b idx; Ret (fold_left (fun z s => step s z) ss st).
Proof.
  revert idx st. induction fuel as [|f IH]; intros; cbn [sec_loop visit bind]; [reflexivity|].
  destruct (vget l idx) as [s|m|m|]; cbn [bind]; try reflexivity.
  destruct (contains s b); [reflexivity|].
  cbv zeta. destruct (_ && _)%bool; [|reflexivity]. rewrite IH. destruct (visit f l a b _) as [r|m|m|]; reflexivity.
Qed.
Lemma path_one (l : list sec) i s : nth_error l i = Some s -> path l i i = [s].
Proof.
  unfold path. rewrite Nat.leb_refl, Nat.sub_diag. intros H. revert i H. induction l as [|x l IH]; intros [|i] H; try discriminate; simpl in *; [now injection H as ->|now apply IH].
Qed.
Lemma skipn_nth (l : list sec) i s : nth_error l i = Some s -> skipn i l = s :: skipn (S i) l.
Proof. revert i. induction l as [|x l IH]; intros [|i] H; try discriminate; simpl in *; [now injection H as ->|now apply IH]. Qed.
Lemma path_up (l : list sec) i j s : nth_error l i = Some s -> (i < j)%nat -> path l i j = s :: path l (S i) j.
Proof.
  intros H L. unfold path. destruct (Nat.leb_spec i j); [|lia]. destruct (Nat.leb_spec (S i) j); [|lia].
  rewrite (skipn_nth _ _ _ H). replace (j - i + 1)%nat with (S (j - S i + 1)) by lia. reflexivity.
Qed.
Lemma firstn_snoc (l : list sec) k s : nth_error l k = Some s -> firstn (S k) l = firstn k l ++ [s].
Proof. revert k. induction l as [|x l IH]; intros [|k] H; try discriminate; simpl in *; [now injection H as ->|now rewrite <- IH]. Qed.
Lemma nth_skipn (l : list sec) i k : nth_error (skipn i l) k = nth_error l (i + k).
Proof. revert i. induction l as [|x l IH]; intros [|i]; simpl; auto. now destruct k. Qed.
Lemma path_down (l : list sec) i j s : nth_error l (S i) = Some s -> (j <= i)%nat -> path l (S i) j = s :: path l i j.
Proof.
  intros H L. unfold path. destruct (Nat.leb_spec (S i) j); [lia|].
  replace (S i - j + 1)%nat with (S (i - j + 1)) by lia.
  rewrite (firstn_snoc _ _ s). 2:{ rewrite nth_skipn, <- H. f_equal. lia. }
  rewrite rev_app_distr. simpl. f_equal. destruct (Nat.leb_spec i j); auto.
  assert (i = j) by lia. subst j. rewrite Nat.sub_diag. simpl.
  destruct (skipn i l) as [|x t] eqn:E; auto.
Qed.

Lemma skipn_skipn (l : list sec) x y : skipn x (skipn y l) = skipn (x + y) l.
Proof. revert y. induction l as [|c l IH]; intros y; [now rewrite !skipn_nil|]. destruct y as [|y]; [now rewrite Nat.add_0_r|]. rewrite Nat.add_succ_r. simpl. apply IH. Qed.

Section Dom.
Variables (l : list sec) (lo hi : R).
Hypothesis PT : partition lo hi l.
Hypothesis OR : forall s, In s l -> smin s <= smax s.

Lemma visit_up fuel i s a b : nth_error l i = Some s -> (length l - i <= fuel)%nat ->
  smin s <= b <= hi -> a < b ->
  exists j sj, (i <= j)%nat /\ nth_error l j = Some sj /\ contains sj b = true /\ visit fuel l a b (Z.of_nat i) = Ret (path l i j).
Proof.
  revert i s; induction fuel as [|f IH]; intros i s Hs Hf Hb Hab.
  { assert (i < length l)%nat by (apply nth_error_Some; congruence). lia. }
  assert (Hi : (i < length l)%nat) by (apply nth_error_Some; congruence).
  cbn [visit]. destruct (vget_in l (Z.of_nat i)) as [s' [V N]]; [lia|]. rewrite Nat2Z.id in N. rewrite Hs in N. injection N as <-.
  rewrite V. cbn [bind]. destruct (contains s b) eqn:C.
  { exists i, s. rewrite (path_one _ _ _ Hs). auto. }
  assert (Lt : smax s < b). { apply Rnot_le_lt. intros K. assert (contains s b = true) by (apply mcontains_R; lra). congruence. }
  assert (HL : (S i < length l)%nat).
  { destruct (Nat.eq_dec (S i) (length l)) as [E|E]; [|lia]. exfalso.
    assert (smax s = hi). { destruct PT as [_ Ch]. eapply (chain_last l lo hi); eauto. replace (Nat.pred (length l)) with i by lia. exact Hs. } lra. }
  assert (exists s1, nth_error l (S i) = Some s1) as [s1 H1]. { destruct (nth_error l (S i)) eqn:E; eauto. apply nth_error_None in E. lia. }
  assert (M1 : smin s1 = smax s). { destruct PT as [_ Ch]. eapply (chain_nth l lo hi); eauto. }
  apply Rltb_true in Hab. cbv zeta. rewrite Hab. apply Rltb_true in Hab.
  replace (Z.of_nat i + 1)%Z with (Z.of_nat (S i)) by lia.
  assert (G : ((0 <=? Z.of_nat (S i)) && (Z.of_nat (S i) <? Z.of_nat (length l)))%Z = true) by (apply andb_true_iff; split; [apply Z.leb_le|apply Z.ltb_lt]; lia). rewrite G.
  destruct (IH (S i) s1 H1) as [j [sj [J1 [J2 [J3 J4]]]]]; [lia| rewrite M1; lra|auto|].
  rewrite J4. cbn [bind]. exists j, sj. split; [lia|]. rewrite (path_up _ _ _ _ Hs) by lia. auto.
Qed.

Lemma visit_down fuel i s a b : nth_error l i = Some s -> (i < fuel)%nat ->
  lo <= b <= smax s -> b < a ->
  exists j sj, (j <= i)%nat /\ nth_error l j = Some sj /\ contains sj b = true /\ visit fuel l a b (Z.of_nat i) = Ret (path l i j).
Proof.
  revert i s; induction fuel as [|f IH]; intros i s Hs Hf Hb Hab; [lia|].
  assert (Hi : (i < length l)%nat) by (apply nth_error_Some; congruence).
  cbn [visit]. destruct (vget_in l (Z.of_nat i)) as [s' [V N]]; [lia|]. rewrite Nat2Z.id in N. rewrite Hs in N. injection N as <-.
  rewrite V. cbn [bind]. destruct (contains s b) eqn:C.
  { exists i, s. rewrite (path_one _ _ _ Hs). auto. }
  assert (Lt : b < smin s). { apply Rnot_le_lt. intros K. assert (contains s b = true) by (apply mcontains_R; lra). congruence. }
  destruct i as [|i].
  { exfalso. assert (smin s = lo). { destruct PT as [_ Ch]. eapply (chain_first l lo hi); eauto. } lra. }
  assert (exists s1, nth_error l i = Some s1) as [s1 H1]. { destruct (nth_error l i) eqn:E; eauto. apply nth_error_None in E. lia. }
  assert (M1 : smin s = smax s1). { destruct PT as [_ Ch]. eapply (chain_nth l lo hi); eauto. }
  assert (Hab' : Rltb a b = false) by (apply Rltb_false; lra). cbv zeta. rewrite Hab'.
  replace (Z.of_nat (S i) + -1)%Z with (Z.of_nat i) by lia.
  assert (G : ((0 <=? Z.of_nat i) && (Z.of_nat i <? Z.of_nat (length l)))%Z = true) by (apply andb_true_iff; split; [apply Z.leb_le|apply Z.ltb_lt]; lia). rewrite G.
  destruct (IH i s1 H1) as [j [sj [J1 [J2 [J3 J4]]]]]; [lia| rewrite <- M1; lra|auto|].
  rewrite J4. cbn [bind]. exists j, sj. split; [lia|]. rewrite (path_down _ _ _ _ Hs) by lia. auto.
Qed.

Lemma ord_l : forall s, In s l -> sle (smin s) (smax s) = true.
Proof. intros s Hs. apply Rleb_true. auto. Qed.

(** A consecutive run of sectors from one containing a to one containing b. *)
Lemma find_visit a b : lo <= a <= hi -> lo <= b <= hi ->
  exists i j si sj, nth_error l i = Some si /\ smin si <= a <= smax si /\ nth_error l j = Some sj /\ smin sj <= b <= smax sj /\
   (a <= b -> (i <= j)%nat) /\ (b <= a -> (j <= i)%nat) /\
   find_sector (length l) l a = Ret (Z.of_nat i) /\ visit (length l) l a b (Z.of_nat i) = Ret (path l i j).
Proof.
  intros Ha Hb. assert (NL : l <> []) by apply PT.
  assert (dom_contains lo hi a = true) as Da by (unfold dom_contains; simpl; apply andb_true_iff; rewrite !Rleb_true; lra).
  destruct (find_sector_correct l lo hi a (length l) PT ord_l ltac:(lia)) as [i [Fi Fs]].
  destruct Fs as [[_ [Fi1 [si [Hs Hc]]]]|[K _]]; [|congruence].
  set (n := Z.to_nat i) in *. assert (Ei : i = Z.of_nat n) by lia.
  assert (CC := proj1 (mcontains_R si a) Hc).
  assert (VV : exists j sj, nth_error l j = Some sj /\ contains sj b = true /\ (a <= b -> (n <= j)%nat) /\ (b <= a -> (j <= n)%nat) /\ visit (length l) l a b (Z.of_nat n) = Ret (path l n j)).
  { destruct (Rtotal_order a b) as [L|[L|L]].
    - destruct (visit_up (length l) n si a b) as [j [sj [J1 [J2 [J3 J4]]]]]; auto; try lia; [lra|]. exists j, sj. repeat split; auto; intros; lra.
    - exists n, si. subst b. repeat split; auto. rewrite (path_one _ _ _ Hs).
      destruct (length l) eqn:Len; [destruct l; [congruence|discriminate]|]. cbn [visit].
      destruct (vget_in l (Z.of_nat n)) as [s' [V N]]; [lia|]. rewrite Nat2Z.id in N. rewrite Hs in N. injection N as <-. rewrite V. cbn [bind]. rewrite Hc. reflexivity.
    - destruct (visit_down (length l) n si a b) as [j [sj [J1 [J2 [J3 J4]]]]]; auto; try lia; [lra|]. exists j, sj. repeat split; auto; intros; lra. }
  destruct VV as [j [sj [J2 [J3 [J5 [J6 J4]]]]]]. apply mcontains_R in J3.
  exists n, j, si, sj. rewrite <- Ei. repeat split; auto; try lra. rewrite Ei. auto.
Qed.

Lemma find_outside a : ~ (lo <= a <= hi) -> find_sector (length l) l a = Ret (-1)%Z.
Proof.
  intros Ha. destruct (find_sector_correct l lo hi a (length l) PT ord_l ltac:(lia)) as [i [Fi Fs]].
  destruct Fs as [[K _]|[_ ->]]; auto. exfalso. apply Ha. unfold dom_contains in K; simpl in K.
  rewrite andb_true_iff, !Rleb_true in K. lra.
Qed.
End Dom.
End Visit.

(** ** a pass through the visited sectors is a pass through all of them *)
Section Full.
Context {P St : Type}.
Notation sec := (sector R P).
Variable step : sec -> St -> St.
Variables (a b : R).
Definition outside (s : sec) : Prop := (smax s <= a /\ smax s <= b) \/ (a <= smin s /\ b <= smin s).
Hypothesis noop : forall s st, outside s -> step s st = st.
Definition frun (ss : list sec) (st : St) : St := fold_left (fun z s => step s z) ss st.
Lemma frun_app s1 s2 st : frun (s1 ++ s2) st = frun s2 (frun s1 st).
Proof. apply fold_left_app. Qed.
Lemma frun_noop ss st : (forall s, In s ss -> outside s) -> frun ss st = st.
Proof. revert st. induction ss as [|s ss IH]; intros st H; cbn; auto. fold (frun ss (step s st)). rewrite (noop s) by (apply H; simpl; auto). apply IH. intros; apply H; simpl; auto. Qed.

Variables (l : list sec) (lo hi : R).
Hypothesis PT : partition lo hi l.
Hypothesis OR : forall s, In s l -> smin s <= smax s.
Lemma OL : ordered l.
Proof. intros s Hs. apply Rleb_true. auto. Qed.

Lemma path_full_up i j si sj st :
  nth_error l i = Some si -> smin si <= a <= smax si -> nth_error l j = Some sj -> smin sj <= b <= smax sj -> (i <= j)%nat -> a <= b ->
  frun (path l i j) st = frun l st.
Proof.
  intros Hi Ca Hj Cb L Hab. unfold path. destruct (Nat.leb_spec i j); [|lia].
  assert (EL : l = firstn i l ++ firstn (j - i + 1) (skipn i l) ++ skipn (j + 1) l).
  { rewrite <- (firstn_skipn i l) at 1. f_equal. rewrite <- (firstn_skipn (j - i + 1) (skipn i l)) at 1. f_equal.
    rewrite skipn_skipn. f_equal. lia. }
  rewrite EL at 2. rewrite !frun_app. pose proof OL as OLl.
  rewrite (frun_noop (firstn i l)).
  2:{ intros s Hs. left. apply In_nth_error in Hs as [k Hk].
      assert (k < i)%nat. { assert (k < length (firstn i l))%nat by (apply nth_error_Some; congruence). rewrite firstn_length in *. lia. }
      assert (Hk' : nth_error l k = Some s). { rewrite EL, nth_error_app1 by (rewrite firstn_length in *; assert (i < length l)%nat by (apply nth_error_Some; congruence); lia). auto. }
      assert (exists s1, nth_error l (S k) = Some s1) as [s1 H1]. { assert (i < length l)%nat by (apply nth_error_Some; congruence). destruct (nth_error l (S k)) eqn:Q; eauto. apply nth_error_None in Q. lia. }
      destruct PT as [_ Ch]. pose proof (chain_nth l lo hi k s s1 Ch Hk' H1) as M.
      destruct (chain_mono l lo hi (S k) i s1 si Ch OLl ltac:(lia) H1 Hi) as [M1 _]. apply Rleb_true in M1. lra. }
  symmetry. apply frun_noop.
  intros s Hs. right. apply In_nth_error in Hs as [k Hk]. rewrite nth_skipn in Hk.
  assert (exists s1, nth_error l (j + k) = Some s1) as [s1 H1]. { assert (j + 1 + k < length l)%nat by (apply nth_error_Some; congruence). destruct (nth_error l (j + k)) eqn:Q; eauto. apply nth_error_None in Q. lia. }
  destruct PT as [_ Ch]. replace (j + 1 + k)%nat with (S (j + k)) in Hk by lia. pose proof (chain_nth l lo hi (j + k) s1 s Ch H1 Hk) as M.
  destruct (chain_mono l lo hi j (j + k) sj s1 Ch OLl ltac:(lia) Hj H1) as [_ M1]. apply Rleb_true in M1. lra.
Qed.
Lemma path_full_down i j si sj st :
  nth_error l i = Some si -> smin si <= a <= smax si -> nth_error l j = Some sj -> smin sj <= b <= smax sj -> (j <= i)%nat -> b <= a ->
  frun (path l i j) st = frun (rev l) st.
Proof.
  intros Hi Ca Hj Cb L Hab.
  assert (EP : path l i j = rev (firstn (i - j + 1) (skipn j l))).
  { unfold path. destruct (Nat.leb_spec i j); [|reflexivity]. assert (i = j) by lia. subst j. rewrite (skipn_nth _ _ _ Hi).
    replace (i - i + 1)%nat with 1%nat by lia. reflexivity. }
  rewrite EP.
  assert (EL : l = firstn j l ++ firstn (i - j + 1) (skipn j l) ++ skipn (i + 1) l).
  { rewrite <- (firstn_skipn j l) at 1. f_equal. rewrite <- (firstn_skipn (i - j + 1) (skipn j l)) at 1. f_equal.
    rewrite skipn_skipn. f_equal. lia. }
  rewrite EL at 2. rewrite !rev_app_distr, !frun_app. pose proof OL as OLl.
  rewrite (frun_noop (rev (skipn (i + 1) l))).
  2:{ intros s Hs. apply in_rev in Hs. right. apply In_nth_error in Hs as [k Hk]. rewrite nth_skipn in Hk.
  assert (exists s1, nth_error l (i + k) = Some s1) as [s1 H1]. { assert (i + 1 + k < length l)%nat by (apply nth_error_Some; congruence). destruct (nth_error l (i + k)) eqn:Q; eauto. apply nth_error_None in Q. lia. }
  destruct PT as [_ Ch]. replace (i + 1 + k)%nat with (S (i + k)) in Hk by lia. pose proof (chain_nth l lo hi (i + k) s1 s Ch H1 Hk) as M.
  destruct (chain_mono l lo hi i (i + k) si s1 Ch OLl ltac:(lia) Hi H1) as [_ M1]. apply Rleb_true in M1. lra. }
  symmetry. apply frun_noop.
  intros s Hs. apply in_rev in Hs. left. apply In_nth_error in Hs as [k Hk].
      assert (k < j)%nat. { assert (k < length (firstn j l))%nat by (apply nth_error_Some; congruence). rewrite firstn_length in *. lia. }
      assert (Hk' : nth_error l k = Some s). { rewrite EL, nth_error_app1 by (rewrite firstn_length in *; assert (j < length l)%nat by (apply nth_error_Some; congruence); lia). auto. }
      assert (exists s1, nth_error l (S k) = Some s1) as [s1 H1]. { assert (j < length l)%nat by (apply nth_error_Some; congruence). destruct (nth_error l (S k)) eqn:Q; eauto. apply nth_error_None in Q. lia. }
      destruct PT as [_ Ch]. pose proof (chain_nth l lo hi k s s1 Ch Hk' H1) as M.
      destruct (chain_mono l lo hi (S k) j s1 sj Ch OLl ltac:(lia) H1 Hj) as [M1 _]. apply Rleb_true in M1. lra.
Qed.
(** In the domain, lookup and loop return the pass through all sectors, in the order from a to b. *)
Lemma loop_full st : lo <= a <= hi -> lo <= b <= hi ->
  (do i <- find_sector (length l) l a; sec_loop step (length l) l a b i st) = Ret (frun (if Rleb a b then l else rev l) st).
Proof.
  intros Ha Hb. destruct (find_visit l lo hi PT OR a b Ha Hb) as [i [j [si [sj [Hi [Ci [Hj [Cj [U [D [Fi V]]]]]]]]]]].
  rewrite Fi. cbn [bind]. rewrite loop_visit, V. cbn [bind]. f_equal. change (fold_left _ (path l i j) st) with (frun (path l i j) st).
  destruct (Rleb a b) eqn:AB; [apply Rleb_true in AB|apply Rleb_false in AB].
  - eapply path_full_up; eauto.
  - eapply path_full_down; eauto; try (apply D; lra). lra.
Qed.
End Full.

(** ** the block steps *)
Section Steps.
Context {F : fieldType} {n : nat} {P : Type}.
Notation sec := (sector R P).
Variable calcT : sec -> R -> R -> bool -> @CT F n.
Notation CYn := (@CY F n).
Notation csprop := (csprop calcT). Notation spsi := (spsi calcT). Notation psiDelta := (psiDelta calcT). Notation cpropDelta := (cpropDelta calcT).

Lemma crev_crev r (y : CYn r) : crev (crev y) = y.
Proof. destruct y as [y e]. unfold crev. cbn [cy ce]. now rewrite !col_mxKu, !col_mxKd, !GRing.opprK, !vsubmxK. Qed.
Lemma cdiv_cmul r (t : @CT F n) (y : CYn r) : ct t \in unitmx -> cdiv t (cmul t y) = y.
Proof.
  intros U. destruct y as [y e]. unfold cdiv, cmul. cbn [cy ce]. rewrite (mulKmx U). f_equal.
  rewrite mulmxDr, (mulKmx U), GRing.addrK. reflexivity.
Qed.
Lemma cmul_cdiv r (t : @CT F n) (y : CYn r) : ct t \in unitmx -> cmul t (cdiv t y) = y.
Proof.
  intros U. destruct y as [y e]. unfold cdiv, cmul. cbn [cy ce]. rewrite (mulKVmx U). f_equal.
  rewrite mulmxDr, (mulKVmx U), mulmxN, (mulKVmx U), GRing.subrK. reflexivity.
Qed.
Lemma cDelta_inv r (s : sec) E u d (y : CYn r) : d <> 0 -> (forall e, ct (calcT s E e u) \in unitmx) ->
  cpropDelta s E u (- d) (cpropDelta s E u d y) = y.
Proof.
  intros N U. unfold M_Matscs.cpropDelta. destruct (dir_eqb (sdir s) Dbwd).
  - destruct (Rleb 0 (d * -1)) eqn:A.
    + apply Rleb_true in A. replace (Rleb 0 (- d * -1)) with false by (symmetry; apply Rleb_false; lra).
      replace (- (- d * -1)) with (d * -1) by ring. cbv zeta. rewrite crev_crev, cdiv_cmul by auto. apply crev_crev.
    + apply Rleb_false in A. replace (Rleb 0 (- d * -1)) with true by (symmetry; apply Rleb_true; lra).
      replace (- (d * -1)) with (- d * -1) by ring. cbv zeta. rewrite crev_crev, cmul_cdiv by auto. apply crev_crev.
  - destruct (Rleb 0 d) eqn:A.
    + apply Rleb_true in A. replace (Rleb 0 (- d)) with false by (symmetry; apply Rleb_false; lra).
      rewrite Ropp_involutive. cbv zeta. now rewrite cdiv_cmul by auto.
    + apply Rleb_false in A. replace (Rleb 0 (- d)) with true by (symmetry; apply Rleb_true; lra).
      cbv zeta. now rewrite cmul_cdiv by auto.
Qed.
Lemma csprop_noop r (s : sec) E u a b (y : CYn r) : outside a b s -> csprop s E u a b y = y.
Proof.
  intros H. unfold M_Matscs.csprop. assert ((Rleb (smax s) a && Rleb (smax s) b) || (Rleb a (smin s) && Rleb b (smin s)) = true) as ->; auto.
  apply orb_true_iff. rewrite !andb_true_iff, !Rleb_true. unfold outside in H. lra.
Qed.
Lemma spsi_noop (s : sec) E a b (p : 'M[F]_n) : outside a b s -> spsi s E a b p = p.
Proof.
  intros H. unfold M_Matscs.spsi. assert ((Rleb (smax s) a && Rleb (smax s) b) || (Rleb a (smin s) && Rleb b (smin s)) = true) as ->; auto.
  apply orb_true_iff. rewrite !andb_true_iff, !Rleb_true. unfold outside in H. lra.
Qed.
Lemma csprop_inv r (s : sec) E u a b (y : CYn r) : (forall e, ct (calcT s E e u) \in unitmx) ->
  csprop s E u b a (csprop s E u a b y) = y.
Proof.
  intros U. unfold M_Matscs.csprop.
  rewrite (andb_comm (Rleb (smax s) b)), (andb_comm (Rleb b (smin s))).
  destruct (negb _); auto. cbv zeta. destruct (dir_eqb (sdir s) Dfwd).
  - destruct (Rltb (smin s) a) eqn:A; destruct (Rltb (smin s) b) eqn:B; auto; try apply Rltb_true in A; try apply Rltb_true in B.
    + replace (smin s - b) with (- (b - smin s)) by ring. rewrite cDelta_inv by (auto; lra).
      replace (a - smin s) with (- (smin s - a)) by ring. apply cDelta_inv; auto; lra.
    + replace (a - smin s) with (- (smin s - a)) by ring. apply cDelta_inv; auto; lra.
    + replace (smin s - b) with (- (b - smin s)) by ring. apply cDelta_inv; auto; lra.
  - destruct (Rltb a (smax s)) eqn:A; destruct (Rltb b (smax s)) eqn:B; auto; try apply Rltb_true in A; try apply Rltb_true in B.
    + replace (smax s - b) with (- (b - smax s)) by ring. rewrite cDelta_inv by (auto; lra).
      replace (a - smax s) with (- (smax s - a)) by ring. apply cDelta_inv; auto; lra.
    + replace (a - smax s) with (- (smax s - a)) by ring. apply cDelta_inv; auto; lra.
    + replace (smax s - b) with (- (b - smax s)) by ring. apply cDelta_inv; auto; lra.
Qed.
Lemma frun_inv r (ss : list sec) E u a b (y : CYn r) : (forall s e, In s ss -> ct (calcT s E e u) \in unitmx) ->
  frun (fun s z => csprop s E u b a z) (rev ss) (frun (fun s z => csprop s E u a b z) ss y) = y.
Proof.
  revert y. induction ss as [|s ss IH]; intros y U; auto. cbn [rev]. unfold frun at 2. cbn [fold_left].
  fold (frun (fun s z => csprop s E u a b z) ss (csprop s E u a b y)).
  rewrite frun_app, IH by (intros; apply U; simpl; auto). unfold frun. cbn [fold_left]. apply csprop_inv. intros; apply U; simpl; auto.
Qed.

(** *** Riccati *)
Definition quot (y : CYn n) : 'M[F]_n := (usubmx (cy y) *m invmx (dsubmx (cy y)))%R.
Definition regular (y : CYn n) : Prop := dsubmx (cy y) \in unitmx.

(** the two blocks of T * y *)
Lemma cmul_u (t : @CT F n) (y : CYn n) : usubmx (cy (cmul t y)) = GRing.add (T00 t *m usubmx (cy y))%R (T01 t *m dsubmx (cy y))%R.
Proof.
  unfold cmul, T00, T01. cbn [cy]. rewrite <- (submxK (ct t)) at 1. rewrite <- (vsubmxK (cy y)) at 1.
  now rewrite mul_block_col, col_mxKu.
Qed.
Lemma cmul_d (t : @CT F n) (y : CYn n) : dsubmx (cy (cmul t y)) = GRing.add (T10 t *m usubmx (cy y))%R (T11 t *m dsubmx (cy y))%R.
Proof.
  unfold cmul, T10, T11. cbn [cy]. rewrite <- (submxK (ct t)) at 1. rewrite <- (vsubmxK (cy y)) at 1.
  now rewrite mul_block_col, col_mxKd.
Qed.
(** B X^-1 with X = V1 V^-1, B = U1 V^-1 *)
Lemma quotient_step (V U1 V1 X B : 'M[F]_n) : V \in unitmx -> V1 \in unitmx -> X = (V1 *m invmx V)%R -> B = (U1 *m invmx V)%R ->
  trmx (invmx (trmx X) *m trmx B)%R = (U1 *m invmx V1)%R.
Proof.
  intros UV UV1 -> ->. etransitivity; [exact (@trmx_mul (GRing.Field.comRingType F) _ _ _ _ _)|]. rewrite trmxK. rewrite (@trmx_inv (GRing.Field.comUnitRingType F)), trmxK.
  assert (UX : (V1 *m invmx V)%R \in unitmx) by (rewrite (@unitmx_mul (GRing.Field.comUnitRingType F)); apply andb_true_intro; split; [exact UV1|]; exact (eq_trans (unitmx_inv V) UV)).
  assert (K : (U1 *m invmx V)%R = ((U1 *m invmx V1) *m (V1 *m invmx V))%R) by (rewrite mulmxA; f_equal; symmetry; exact (mulmxKV UV1 _)).
  rewrite K. exact (mulmxK UX _).
Qed.
Lemma sc1 m1 m2 (A : 'M[F]_(m1, m2)) : scalemx (GRing.one F) A = A.
Proof. apply scale1mx. Qed.
Lemma scN1 m1 m2 (A : 'M[F]_(m1, m2)) : scalemx (GRing.opp (GRing.one F)) A = GRing.opp A.
Proof. exact (GRing.scaleN1r A). Qed.

Lemma psi_fwd (s : sec) E d (y : CYn n) : sdir s = Dfwd -> smin s < smax s -> 0 < d -> regular y -> regular (cpropDelta s E true d y) ->
  psiDelta s E (quot y) d = quot (cpropDelta s E true d y).
Proof.
  intros D H Hd Ry Ry'. unfold M_Matscs.psiDelta, M_Matscs.cpropDelta in *. rewrite D in *. cbn [dir_eqb] in *.
  assert (Rleb 0 d = true) as K by (apply Rleb_true; lra). rewrite K in *. cbv zeta in *.
  set (e := if Rltb (csh s) d then csh s else d) in *.
  assert (0 < e) as He by (unfold e, csh; destruct (Rltb _ d); lra). rewrite (proj2 (Rltb_true 0 e) He).
  set (t := calcT s E e true) in *. rewrite !sc1. unfold regular in *. change (quot (cmul t y)) with (usubmx (cy (cmul t y)) *m invmx (dsubmx (cy (cmul t y))))%R.
  apply quotient_step with (V := dsubmx (cy y)); auto.
  - rewrite cmul_d. unfold quot. rewrite mulmxDl, mulmxA. rewrite GRing.addrC. f_equal. symmetry. exact (mulmxK Ry _).
  - rewrite cmul_u. unfold quot. rewrite mulmxDl, mulmxA. rewrite GRing.addrC. f_equal. symmetry. exact (mulmxK Ry _).
Qed.
Lemma crev_d (y : CYn n) : dsubmx (cy (crev y)) = GRing.opp (dsubmx (cy y)).
Proof. unfold crev. cbn [cy]. apply col_mxKd. Qed.
Lemma crev_u (y : CYn n) : usubmx (cy (crev y)) = usubmx (cy y).
Proof. unfold crev. cbn [cy]. apply col_mxKu. Qed.
Lemma psi_bwd (s : sec) E d (y : CYn n) : sdir s = Dbwd -> smin s < smax s -> d < 0 -> regular y -> regular (cpropDelta s E true d y) ->
  psiDelta s E (quot y) d = quot (cpropDelta s E true d y).
Proof.
  intros D H Hd Ry Ry'. unfold M_Matscs.psiDelta, M_Matscs.cpropDelta in *. rewrite D in *. cbn [dir_eqb] in *.
  assert (Rleb 0 (d * -1) = true) as K by (apply Rleb_true; lra). rewrite K in *. cbv zeta in *.
  set (e := if Rltb (csh s) (d * -1) then csh s else d * -1) in *.
  assert (0 < e) as He by (unfold e, csh; destruct (Rltb _ (d * -1)); lra). rewrite (proj2 (Rltb_true 0 e) He).
  set (t := calcT s E e true) in *. rewrite !scN1. unfold regular in *. change (quot (crev (cmul t (crev y)))) with (usubmx (cy (crev (cmul t (crev y)))) *m invmx (dsubmx (cy (crev (cmul t (crev y))))))%R.
  rewrite crev_u. rewrite (quotient_step (dsubmx (cy y)) (GRing.opp (usubmx (cy (cmul t (crev y))))) (dsubmx (cy (crev (cmul t (crev y)))))); auto.
  - now rewrite mulNmx, GRing.opprK.
  - rewrite crev_d, cmul_d, crev_u, crev_d. unfold quot. rewrite mulmxN, GRing.opprD, GRing.opprK, mulmxDl, (mulmxK Ry), !mulNmx, mulmxA. apply GRing.addrC.
  - rewrite cmul_u, crev_u, crev_d. unfold quot. rewrite mulmxN, GRing.opprD, GRing.opprK, mulmxDl, (mulmxK Ry), !mulNmx, mulmxA. apply GRing.addrC.
Qed.

(** a sector entered at its anchored end: min for forward sectors, max for backward ones *)
Lemma spsi_fwd (s : sec) E a b (y : CYn n) : smin s < smax s -> a <= smin s -> (smin s < b -> sdir s = Dfwd) -> regular y ->
  regular (csprop s E true a b y) -> spsi s E a b (quot y) = quot (csprop s E true a b y).
Proof.
  intros H Ha D Ry Ry'. destruct (Rle_lt_dec b (smin s)) as [B|B].
  - rewrite spsi_noop, csprop_noop; auto; right; lra.
  - specialize (D B). unfold M_Matscs.spsi, M_Matscs.csprop in *. rewrite D in *. cbn [dir_eqb] in *.
    destruct (negb _); auto. replace (Rltb (smin s) a) with false in * by (symmetry; apply Rltb_false; lra).
    replace (Rltb (smin s) b) with true in * by (symmetry; apply Rltb_true; lra). cbv zeta in *. apply psi_fwd; auto; lra.
Qed.
Lemma spsi_bwd (s : sec) E a b (y : CYn n) : smin s < smax s -> smax s <= a -> (b < smax s -> sdir s = Dbwd) -> regular y ->
  regular (csprop s E true a b y) -> spsi s E a b (quot y) = quot (csprop s E true a b y).
Proof.
  intros H Ha D Ry Ry'. destruct (Rle_lt_dec (smax s) b) as [B|B].
  - rewrite spsi_noop, csprop_noop; auto; left; lra.
  - specialize (D B). unfold M_Matscs.spsi, M_Matscs.csprop in *. rewrite D in *. cbn [dir_eqb] in *.
    destruct (negb _); auto. replace (Rltb a (smax s)) with false in * by (symmetry; apply Rltb_false; lra).
    replace (Rltb b (smax s)) with true in * by (symmetry; apply Rltb_true; lra). cbv zeta in *. apply psi_bwd; auto; lra.
Qed.
(** beyond the far end the target does not matter *)
Lemma csprop_far (s : sec) E u a b x (y : CYn n) : smin s < smax s -> a <= smin s -> sdir s = Dfwd -> smax s <= b -> smax s <= x ->
  csprop s E u a b y = csprop s E u a x y.
Proof.
  intros H Ha D Hb Hx. unfold M_Matscs.csprop. rewrite D. cbn [dir_eqb].
  replace (Rleb b (smin s)) with false by (symmetry; apply Rleb_false; lra). replace (Rleb x (smin s)) with false by (symmetry; apply Rleb_false; lra).
  replace (Rleb (smax s) b) with true by (symmetry; apply Rleb_true; lra). replace (Rleb (smax s) x) with true by (symmetry; apply Rleb_true; lra).
  replace (Rltb (smin s) b) with true by (symmetry; apply Rltb_true; lra). replace (Rltb (smin s) x) with true by (symmetry; apply Rltb_true; lra).
  destruct (negb _); auto. cbv zeta. destruct (Rltb (smin s) a) eqn:A; [apply Rltb_true in A; lra|].
  unfold M_Matscs.cpropDelta. rewrite D. cbn [dir_eqb].
  replace (Rleb 0 (b - smin s)) with true by (symmetry; apply Rleb_true; lra). replace (Rleb 0 (x - smin s)) with true by (symmetry; apply Rleb_true; lra).
  assert (G : forall z, smax s <= z -> (if Rltb (csh s) (z - smin s) then csh s else z - smin s) = csh s).
  { intros z Hz. match goal with |- (if ?c then _ else _) = _ => destruct c eqn:Q end; auto. apply Rltb_false in Q. unfold csh in *. lra. }
  cbv zeta. now rewrite !G by auto.
Qed.
Lemma csprop_far_down (s : sec) E u a b x (y : CYn n) : smin s < smax s -> smax s <= a -> sdir s = Dbwd -> b <= smin s -> x <= smin s ->
  csprop s E u a b y = csprop s E u a x y.
Proof.
  intros H Ha D Hb Hx. unfold M_Matscs.csprop. rewrite D. cbn [dir_eqb].
  replace (Rleb b (smin s)) with true by (symmetry; apply Rleb_true; lra). replace (Rleb x (smin s)) with true by (symmetry; apply Rleb_true; lra).
  replace (Rleb (smax s) b) with false by (symmetry; apply Rleb_false; lra). replace (Rleb (smax s) x) with false by (symmetry; apply Rleb_false; lra).
  replace (Rltb b (smax s)) with true by (symmetry; apply Rltb_true; lra). replace (Rltb x (smax s)) with true by (symmetry; apply Rltb_true; lra).
  destruct (negb _); auto. cbv zeta. destruct (Rltb a (smax s)) eqn:A; [apply Rltb_true in A; lra|].
  unfold M_Matscs.cpropDelta. rewrite D. cbn [dir_eqb].
  replace (Rleb 0 ((b - smax s) * -1)) with true by (symmetry; apply Rleb_true; lra). replace (Rleb 0 ((x - smax s) * -1)) with true by (symmetry; apply Rleb_true; lra).
  assert (G : forall z, z <= smin s -> (if Rltb (csh s) ((z - smax s) * -1) then csh s else (z - smax s) * -1) = csh s).
  { intros z Hz. match goal with |- (if ?c then _ else _) = _ => destruct c eqn:Q end; auto. apply Rltb_false in Q. unfold csh in *. lra. }
  cbv zeta. now rewrite !G by auto.
Qed.

Definition crun E a x := frun (fun s (z : CYn n) => csprop s E true a x z).
Lemma crun_noop E a x ss (y : CYn n) : (forall s, In s ss -> outside a x s) -> crun E a x ss y = y.
Proof. intros H. unfold crun. apply (frun_noop _ a x); auto. intros. now apply csprop_noop. Qed.

Lemma riccati_up (l : list sec) E a b : a <= b -> forall lo hi (y : CYn n), chain lo hi l ->
  (forall s, In s l -> smin s < smax s) ->
  (forall s, In s l -> smax s <= a \/ a <= smin s) -> (forall s, In s l -> a <= smin s -> smin s < b -> sdir s = Dfwd) ->
  (forall x, a <= x <= b -> regular (crun E a x l y)) ->
  frun (fun s p => spsi s E a b p) l (quot y) = quot (crun E a b l y).
Proof.
  intros Hab. induction l as [|s l IH]; intros lo hi y Ch O B D Rg; auto.
  cbn in Ch. destruct Ch as [_ Ch].
  pose proof (O s (or_introl eq_refl)) as Os.
  assert (Later : forall t, In t l -> smax s <= smin t).
  { clear -Ch O. revert Ch O. generalize (smax s). induction l as [|h l' IHl]; [intros m _ _ t []|]. intros m Ch O t [<-|Ht]; cbn in Ch; destruct Ch as [E1 Ch].
    - lra.
    - pose proof (O h ltac:(simpl; auto)). pose proof (IHl (smax h) Ch ltac:(intros; apply O; simpl in *; tauto) t Ht). lra. }
  unfold crun, frun in *. cbn [fold_left] in *.
  change (fold_left (fun z s => spsi s E a b z) l (spsi s E a b (quot y)) = quot (fold_left (fun z s => csprop s E true a b z) l (csprop s E true a b y))).
  assert (R0 : regular y).
  { specialize (Rg a ltac:(lra)). rewrite csprop_noop in Rg.
    2:{ destruct (B s (or_introl eq_refl)); unfold outside; lra. }
    fold (frun (fun s z => csprop s E true a a z) l y) in Rg. rewrite (frun_noop _ a a) in Rg; auto.
    - intros; now apply csprop_noop.
    - intros t Ht. destruct (B t (or_intror Ht)); unfold outside; lra. }
  set (x0 := Rmin b (Rmax a (smax s))).
  assert (X0 : a <= x0 <= b) by (unfold x0, Rmin, Rmax; destruct (Rle_dec a (smax s)), (Rle_dec b _); lra).
  assert (Same : forall x, x0 <= x <= b -> csprop s E true a x y = csprop s E true a b y).
  { intros x Hx. destruct (B s (or_introl eq_refl)) as [Bs|Bs].
    - rewrite !csprop_noop; auto; left; lra.
    - destruct (Rle_lt_dec b (smin s)) as [Bb|Bb]; [rewrite !csprop_noop; auto; right; lra|].
      assert (x = b \/ (smax s <= x /\ smax s <= b)) as [->|[K1 K2]].
      { unfold x0, Rmin, Rmax in Hx. destruct (Rle_dec a (smax s)), (Rle_dec b _); lra. }
      + auto. + symmetry. apply csprop_far; auto. apply D; simpl; auto. }
  assert (NoL : forall x, x <= x0 -> a <= x -> forall z, fold_left (fun (z : CYn n) s => csprop s E true a x z) l z = z).
  { intros x Hx Hax z. apply (frun_noop (fun s (z : CYn n) => csprop s E true a x z) a x); [intros; now apply csprop_noop|].
    intros t Ht. pose proof (Later t Ht). destruct (B t (or_intror Ht)) as [Bt|Bt]; [|right].
    - left. lra.
    - unfold x0, Rmin, Rmax in Hx. destruct (Rle_dec a (smax s)), (Rle_dec b _); lra. }
  assert (R1 : regular (csprop s E true a b y)).
  { specialize (Rg x0 X0). rewrite NoL in Rg by lra. rewrite Same in Rg by lra. auto. }
  assert (Hs : spsi s E a b (quot y) = quot (csprop s E true a b y)).
  { destruct (B s (or_introl eq_refl)) as [Bs|Bs]; [rewrite spsi_noop, csprop_noop; auto; left; lra|].
    apply spsi_fwd; auto. intros; apply D; simpl; auto. }
  rewrite Hs. apply (IH (smax s) hi); auto; try (intros; first [apply O|apply B|apply D]; simpl; auto).
  intros x Hx. destruct (Rle_lt_dec x0 x) as [K|K].
  - rewrite <- (Same x) by lra. apply Rg; auto.
  - rewrite NoL by lra. auto.
Qed.

Fixpoint below (l : list sec) : Prop :=
  match l with [] => True | s :: l => (forall t, In t l -> smax t <= smin s) /\ below l end.
Lemma below_app l l' : below l -> below l' -> (forall s t, In s l -> In t l' -> smax t <= smin s) -> below (l ++ l').
Proof.
  induction l as [|s l IH]; cbn; auto. intros [A B] B' H. split.
  - intros t Ht. apply in_app_or in Ht as [Ht|Ht]; auto.
  - apply IH; auto.
Qed.
Lemma chain_later (l : list sec) lo hi : chain lo hi l -> (forall s, In s l -> smin s < smax s) -> forall t, In t l -> lo <= smin t.
Proof.
  revert lo. induction l as [|h l IHl]; [intros m _ _ t []|]. intros m Ch O t [<-|Ht]; cbn in Ch; destruct Ch as [E1 Ch].
  - lra.
  - pose proof (O h ltac:(simpl; auto)). pose proof (IHl (smax h) Ch ltac:(intros; apply O; simpl in *; tauto) t Ht). lra.
Qed.
Lemma chain_below lo hi l : chain lo hi l -> (forall s, In s l -> smin s < smax s) -> below (rev l).
Proof.
  revert lo. induction l as [|s l IH]; intros lo Ch O; cbn [rev]; [exact I|].
  cbn in Ch. destruct Ch as [_ Ch].
  assert (O' : forall t, In t l -> smin t < smax t) by (intros; apply O; simpl; auto).
  apply below_app.
  - apply (IH (smax s)); auto.
  - cbn. split; [intros t []|exact I].
  - intros t t' Ht [<-|[]]. apply in_rev in Ht. apply (chain_later _ _ _ Ch O' t Ht).
Qed.
Lemma riccati_down (l : list sec) E a b : b <= a -> forall (y : CYn n), below l ->
  (forall s, In s l -> smin s < smax s) ->
  (forall s, In s l -> smax s <= a \/ a <= smin s) -> (forall s, In s l -> smax s <= a -> b < smax s -> sdir s = Dbwd) ->
  (forall x, b <= x <= a -> regular (crun E a x l y)) ->
  frun (fun s p => spsi s E a b p) l (quot y) = quot (crun E a b l y).
Proof.
  intros Hab. induction l as [|s l IH]; intros y Ch O B D Rg; auto.
  cbn in Ch. destruct Ch as [Later Ch].
  pose proof (O s (or_introl eq_refl)) as Os.
  unfold crun, frun in *. cbn [fold_left] in *.
  change (fold_left (fun z s => spsi s E a b z) l (spsi s E a b (quot y)) = quot (fold_left (fun z s => csprop s E true a b z) l (csprop s E true a b y))).
  assert (R0 : regular y).
  { specialize (Rg a ltac:(lra)). rewrite csprop_noop in Rg.
    2:{ destruct (B s (or_introl eq_refl)); unfold outside; lra. }
    fold (frun (fun s z => csprop s E true a a z) l y) in Rg. rewrite (frun_noop _ a a) in Rg; auto.
    - intros; now apply csprop_noop.
    - intros t Ht. destruct (B t (or_intror Ht)); unfold outside; lra. }
  set (x0 := Rmax b (Rmin a (smin s))).
  assert (X0 : b <= x0 <= a) by (unfold x0, Rmin, Rmax; destruct (Rle_dec a (smin s)), (Rle_dec b _); lra).
  assert (Same : forall x, b <= x <= x0 -> csprop s E true a x y = csprop s E true a b y).
  { intros x Hx. destruct (B s (or_introl eq_refl)) as [Bs|Bs].
    2:{ rewrite !csprop_noop; auto; right; lra. }
    destruct (Rle_lt_dec (smax s) b) as [Bb|Bb]; [rewrite !csprop_noop; auto; left; lra|].
    assert (x = b \/ (x <= smin s /\ b <= smin s)) as [->|[K1 K2]].
    { unfold x0, Rmin, Rmax in Hx. destruct (Rle_dec a (smin s)), (Rle_dec b _); lra. }
    + auto.
    + symmetry. apply csprop_far_down; auto. apply D; simpl; auto. }
  assert (NoL : forall x, x0 <= x -> x <= a -> forall z, fold_left (fun (z : CYn n) s => csprop s E true a x z) l z = z).
  { intros x Hx Hax z. apply (frun_noop (fun s (z : CYn n) => csprop s E true a x z) a x); [intros; now apply csprop_noop|].
    intros t Ht. pose proof (Later t Ht). destruct (B t (or_intror Ht)) as [Bt|Bt]; [left|right; lra].
    unfold x0, Rmin, Rmax in Hx. destruct (Rle_dec a (smin s)), (Rle_dec b _); lra. }
  assert (R1 : regular (csprop s E true a b y)).
  { specialize (Rg x0 X0). rewrite NoL in Rg by lra. rewrite Same in Rg by lra. auto. }
  assert (Hs : spsi s E a b (quot y) = quot (csprop s E true a b y)).
  { destruct (B s (or_introl eq_refl)) as [Bs|Bs]; [|rewrite spsi_noop, csprop_noop; auto; right; lra].
    apply spsi_bwd; auto. intros; apply D; simpl; auto. }
  rewrite Hs. apply IH; auto; try (intros; first [apply O|apply B|apply D]; simpl; auto).
  intros x Hx. destruct (Rle_lt_dec x x0) as [K|K].
  - rewrite <- (Same x) by lra. apply Rg; auto.
  - rewrite NoL by lra. auto.
Qed.
End Steps.
