(** Propagation through sector lists: linear structure, visited sectors, invertibility. *)
From Coq Require Import String Reals ZArith List Lra Lia Psatz Bool.
From Coquelicot Require Import Coquelicot.
From Verif Require Import Base M_Sectors M_Core S_Sectors S_Core P_Lookup P_Prufer.
Import ListNotations.
Open Scope R_scope.

Lemma Y_eq (a b : Y) : y0 a = y0 b -> y1 a = y1 b -> e0 a = e0 b -> e1 a = e1 b -> a = b.
Proof. destruct a, b; simpl; intros; subst; reflexivity. Qed.
Lemma reverse_reverse y : reverse (reverse y) = y.
Proof. apply Y_eq; unfold reverse; cbn [y0 y1 e0 e1]; ring. Qed.

Lemma linear_id : linearY (fun y => y).
Proof. split; auto. Qed.
Lemma linear_comp f g : linearY f -> linearY g -> linearY (fun y => f (g y)).
Proof. intros [A B] [C D]; split; intros; [rewrite C, A|rewrite D, B]; reflexivity. Qed.
Lemma linear_tmul t : linearY (tmul t).
Proof. split; intros; apply Y_eq; unfold tmul, yadd, yscale; cbn [y0 y1 e0 e1]; ring. Qed.
Lemma linear_tdiv t : linearY (tdiv t).
Proof. apply linear_tmul. Qed.
Lemma linear_reverse : linearY reverse.
Proof. split; intros; apply Y_eq; unfold reverse, yadd, yscale; cbn [y0 y1 e0 e1]; ring. Qed.

(** det of the inverse: T/(T*y) = det y (and the product rule for the energy derivative). *)
Lemma tdiv_tmul t y : tdiv t (tmul t y) =
  mkY (det t * y0 y) (det t * y1 y) (det t * e0 y + ddet t * y0 y) (det t * e1 y + ddet t * y1 y).
Proof. apply Y_eq; unfold tdiv, tmul, det, ddet; cbn [y0 y1 e0 e1 t00 t01 t10 t11 d00 d01 d10 d11]; ring. Qed.
Lemma tmul_tdiv t y : tmul t (tdiv t y) =
  mkY (det t * y0 y) (det t * y1 y) (det t * e0 y + ddet t * y0 y) (det t * e1 y + ddet t * y1 y).
Proof. apply Y_eq; unfold tdiv, tmul, det, ddet; cbn [y0 y1 e0 e1 t00 t01 t10 t11 d00 d01 d10 d11]; ring. Qed.
Lemma yid y : mkY (1 * y0 y) (1 * y1 y) (1 * e0 y + 0 * y0 y) (1 * e1 y + 0 * y1 y) = y.
Proof. apply Y_eq; cbn [y0 y1 e0 e1]; ring. Qed.

Lemma is_derive_multR (f g : R -> R) x df dg : is_derive f x df -> is_derive g x dg -> is_derive (fun t => f t * g t) x (df * g x + f x * dg).
Proof. intros A B. apply (is_derive_mult f g x df dg A B). intros; apply Rmult_comm. Qed.
Lemma is_derive_plusR (f g : R -> R) x df dg : is_derive f x df -> is_derive g x dg -> is_derive (fun t => f t + g t) x (df + dg).
Proof. intros A B. apply (is_derive_plus f g x df dg A B). Qed.
Lemma is_derive_minusR (f g : R -> R) x df dg : is_derive f x df -> is_derive g x dg -> is_derive (fun t => f t - g t) x (df - dg).
Proof. intros A B. apply (is_derive_minus f g x df dg A B). Qed.
Lemma is_derive_oppR (f : R -> R) x df : is_derive f x df -> is_derive (fun t => - f t) x (- df).
Proof. intros A. exact (is_derive_opp f x df A). Qed.
Lemma deriv_tmul t y E : T_deriv t E -> Y_deriv y E -> Y_deriv (fun x => tmul (t x) (y x)) E.
Proof.
  intros [A [B [C D]]] [P Q]. unfold Y_deriv, tmul; cbn [y0 y1 e0 e1]. split.
  - evar_last; [apply is_derive_plusR; apply is_derive_multR; eassumption|cbn; ring].
  - evar_last; [apply is_derive_plusR; apply is_derive_multR; eassumption|cbn; ring].
Qed.
Lemma deriv_tdiv t y E : T_deriv t E -> Y_deriv y E -> Y_deriv (fun x => tdiv (t x) (y x)) E.
Proof.
  intros [A [B [C D]]] HY. unfold tdiv. apply (deriv_tmul (fun x => mkT (t11 (t x)) (- t01 (t x)) (- t10 (t x)) (t00 (t x)) (d11 (t x)) (- d01 (t x)) (- d10 (t x)) (d00 (t x)))); auto.
  unfold T_deriv; cbn [t00 t01 t10 t11 d00 d01 d10 d11].
  refine (conj D (conj _ (conj _ A))); apply is_derive_oppR; auto.
Qed.
Lemma deriv_reverse y E : Y_deriv y E -> Y_deriv (fun x => reverse (y x)) E.
Proof.
  intros [P Q]. unfold Y_deriv, reverse; cbn [y0 y1 e0 e1]. split; auto.
  evar_last; [apply is_derive_multR; [eassumption|apply (is_derive_const (-1))]|cbn; unfold zero; simpl; ring].
Qed.

Lemma contains_R (s : sec) x : contains s x = true <-> smin s <= x <= smax s.
Proof. unfold contains. rewrite andb_true_iff. simpl. rewrite !Rleb_true. tauto. Qed.

Lemma skipn_nth {A} (l : list A) i s : nth_error l i = Some s -> skipn i l = s :: skipn (S i) l.
Proof.
  revert l; induction i as [|i IH]; intros [|x l] H; try discriminate; cbn in *; [congruence|]. apply IH; auto.
Qed.
Lemma firstn_snoc {A} (l : list A) n s : nth_error l n = Some s -> firstn (S n) l = firstn n l ++ [s].
Proof.
  revert l; induction n as [|n IH]; intros [|x l] H; try discriminate; cbn in *; [congruence|]. f_equal. apply IH; auto.
Qed.
Lemma nth_skipn {A} (l : list A) i j : nth_error (skipn i l) j = nth_error l (i + j).
Proof. revert l; induction i as [|i IH]; intros l; cbn; auto. destruct l; cbn; auto. destruct j; reflexivity. Qed.

Lemma path_up l i j s : nth_error l i = Some s -> (i < j)%nat -> path l i j = s :: path l (S i) j.
Proof.
  intros H L. unfold path. destruct (Nat.leb_spec i j); [|lia]. destruct (Nat.leb_spec (S i) j); [|lia].
  rewrite (skipn_nth _ _ _ H). replace (j - i + 1)%nat with (S (j - S i + 1)) by lia. reflexivity.
Qed.
Lemma path_one l i s : nth_error l i = Some s -> path l i i = [s].
Proof.
  intros H. unfold path. destruct (Nat.leb_spec i i); [|lia]. rewrite (skipn_nth _ _ _ H).
  replace (i - i + 1)%nat with 1%nat by lia. reflexivity.
Qed.
Lemma path_down l i j s : nth_error l (S i) = Some s -> (j <= i)%nat -> path l (S i) j = s :: path l i j.
Proof.
  intros H L. unfold path. destruct (Nat.leb_spec (S i) j); [lia|].
  replace (S i - j + 1)%nat with (S (S i - j)) by lia.
  rewrite (firstn_snoc _ _ s) by (rewrite nth_skipn; replace (j + (S i - j))%nat with (S i) by lia; auto).
  rewrite rev_app_distr. cbn [rev app]. f_equal.
  destruct (Nat.leb_spec i j).
  - assert (i = j) by lia. subst i. replace (S j - j)%nat with 1%nat by lia. replace (j - j + 1)%nat with 1%nat by lia.
    assert (exists s', nth_error l j = Some s') as [s' Hs'].
    { assert (S j < length l)%nat by (apply nth_error_Some; congruence). destruct (nth_error l j) eqn:E; eauto. apply nth_error_None in E. lia. }
    rewrite (skipn_nth _ _ _ Hs'). reflexivity.
  - replace (S i - j)%nat with (i - j + 1)%nat by lia. reflexivity.
Qed.

Lemma ord_l (l : list sec) : (forall s, In s l -> smin s <= smax s) -> ordered l.
Proof. intros OR s Hs. apply Rleb_true. apply OR; auto. Qed.
Section Props.
Variable calcT : sec -> R -> R -> bool -> Tm.
Variable vm : R.
Notation propagateDelta := (propagateDelta calcT vm).
Notation sprop := (sprop calcT vm).
Notation propagate := (propagate calcT vm).
Notation prop_loop := (prop_loop calcT vm).

Definition ydelta (s : sec) (E : R) (u : bool) (d : R) (y : Y) : Y := fst (propagateDelta s E u d (y, 0)).
Definition tdelta (s : sec) (E : R) (u : bool) (d : R) (y : Y) : R := snd (propagateDelta s E u d (y, 0)).
Lemma pdelta_split s E u d y th : propagateDelta s E u d (y, th) = (ydelta s E u d y, th + tdelta s E u d y).
Proof. unfold ydelta, tdelta, M_Core.propagateDelta. cbn [fst snd]. f_equal. ring. Qed.

Definition yprop (s : sec) (E a b : R) (u : bool) (y : Y) : Y := fst (sprop s E y a b u).
Definition tprop (s : sec) (E a b : R) (u : bool) (y : Y) : R := snd (sprop s E y a b u).

Lemma ydelta_linear s E u d : linearY (ydelta s E u d).
Proof.
  unfold ydelta, M_Core.propagateDelta. cbn [fst].
  set (t := calcT s E _ u). destruct (dir_eqb (sdir s) Dbwd).
  - destruct (Rleb 0 (d * -1)).
    + apply (linear_comp reverse (fun y => tmul t (reverse y))); [apply linear_reverse|]. apply (linear_comp (tmul t) reverse); [apply linear_tmul|apply linear_reverse].
    + apply (linear_comp reverse (fun y => tdiv t (reverse y))); [apply linear_reverse|]. apply (linear_comp (tdiv t) reverse); [apply linear_tdiv|apply linear_reverse].
  - destruct (Rleb 0 d); [apply linear_tmul|apply linear_tdiv].
Qed.

(** sprop as at most two steps. *)
Inductive steps (s : sec) (E : R) (u : bool) : Y -> Y -> R -> Prop :=
| steps0 y : steps s E u y y 0
| steps1 y d y' th : steps s E u y y' th -> steps s E u y (ydelta s E u d y') (th + tdelta s E u d y').
Lemma sprop_steps s E y a b u : steps s E u y (yprop s E a b u y) (tprop s E a b u y).
Proof.
  unfold yprop, tprop, M_Core.sprop. cbv zeta.
  destruct (negb _); [|apply steps0].
  destruct (dir_eqb (sdir s) Dfwd).
  - destruct (Rltb (smin s) a); [try rewrite !pdelta_split|]; (destruct (Rltb (smin s) b); [try rewrite !pdelta_split|]); cbn [fst snd]; repeat apply steps1; apply steps0.
  - destruct (Rltb a (smax s)); [try rewrite !pdelta_split|]; (destruct (Rltb b (smax s)); [try rewrite !pdelta_split|]); cbn [fst snd]; repeat apply steps1; apply steps0.
Qed.

Lemma yprop_linear s E a b u : linearY (yprop s E a b u).
Proof.
  unfold yprop, M_Core.sprop. cbv zeta. destruct (negb _); [|apply linear_id].
  destruct (dir_eqb (sdir s) Dfwd).
  - split; intros; (destruct (Rltb (smin s) a); [try rewrite !pdelta_split|]); (destruct (Rltb (smin s) b); [try rewrite !pdelta_split|]); cbn [fst snd];
      repeat (rewrite (proj1 (ydelta_linear _ _ _ _)) || rewrite (proj2 (ydelta_linear _ _ _ _))); reflexivity.
  - split; intros; (destruct (Rltb a (smax s)); [try rewrite !pdelta_split|]); (destruct (Rltb b (smax s)); [try rewrite !pdelta_split|]); cbn [fst snd];
      repeat (rewrite (proj1 (ydelta_linear _ _ _ _)) || rewrite (proj2 (ydelta_linear _ _ _ _))); reflexivity.
Qed.

(** The sectors visited by the loop do not depend on the solution or the energy. *)
Fixpoint visit (fuel : nat) (l : list sec) (a b : R) (idx : Z) : res (list sec) :=
  match fuel with
  | O => Fuel
  | S f =>
      do s <- vget l idx;
      if contains s b then Ret [s]
      else
        let idx := (idx + (if Rltb a b then 1 else -1))%Z in
        if ((0 <=? idx) && (idx <? Z.of_nat (length l)))%Z then do r <- visit f l a b idx; Ret (s :: r)
        else Ret [s]
  end.
Definition run1 (E a b : R) (u : bool) (st : Y * R) (s : sec) : Y * R :=
  (yprop s E a b u (fst st), snd st + tprop s E a b u (fst st)).
Definition run (ss : list sec) (E a b : R) (u : bool) (st : Y * R) : Y * R := fold_left (run1 E a b u) ss st.
Lemma prop_loop_visit fuel l E a b u idx y th :
  prop_loop fuel l E a b u idx y th = do ss <- visit fuel l a b idx; Ret (run ss E a b u (y, th)).
Proof.
  revert idx y th. induction fuel as [|f IH]; intros; cbn [M_Core.prop_loop visit bind]; [reflexivity|].
  destruct (vget l idx) as [s|m|m|]; cbn [bind]; try reflexivity.
  destruct (sprop s E y a b u) as [y' d] eqn:SP.
  assert (Y' : y' = yprop s E a b u y) by (unfold yprop; rewrite SP; reflexivity).
  assert (D' : d = tprop s E a b u y) by (unfold tprop; rewrite SP; reflexivity).
  destruct (contains s b); [cbn; unfold run1; cbn [fst snd]; subst; reflexivity|].
  cbv zeta. destruct (_ && _)%bool.
  - rewrite IH. destruct (visit f l a b _) as [r|m|m|]; cbn [bind]; try reflexivity.
    unfold run. cbn [fold_left]. unfold run1 at 3. cbn [fst snd]. subst. reflexivity.
  - cbn. unfold run1. cbn [fst snd]. subst. reflexivity.
Qed.

Section Dom.
Variables (l : list sec) (lo hi : R).
Hypothesis PT : partition lo hi l.
Hypothesis OR : forall s, In s l -> smin s <= smax s.


Lemma nth_in i s : nth_error l i = Some s -> In s l. Proof. apply nth_error_In. Qed.

Lemma visit_up fuel i s a b : nth_error l i = Some s -> (length l - i <= fuel)%nat ->
  smin s <= b <= hi -> a < b ->
  exists j sj, (i <= j)%nat /\ nth_error l j = Some sj /\ contains sj b = true /\ visit fuel l a b (Z.of_nat i) = Ret (path l i j).
Proof.
  revert i s; induction fuel as [|f IH]; intros i s Hs Hf Hb Hab.
  { assert (i < length l)%nat by (apply nth_error_Some; congruence). lia. }
  assert (Hi : (i < length l)%nat) by (apply nth_error_Some; congruence).
  cbn [visit]. destruct (vget_in l (Z.of_nat i)) as [s' [V N]]; [lia|]. rewrite Nat2Z.id in N. rewrite Hs in N. injection N as <-.
  rewrite V. cbn [bind]. destruct (contains s b) eqn:C.
  { exists i, s. rewrite (path_one _ _ _ Hs). auto. }
  assert (Lt : smax s < b). { apply Rnot_le_lt. intros K. assert (contains s b = true) by (apply contains_R; lra). congruence. }
  assert (HL : (S i < length l)%nat).
  { destruct (Nat.eq_dec (S i) (length l)) as [E|E]; [|lia]. exfalso.
    assert (smax s = hi). { destruct PT as [_ Ch]. eapply (chain_last l lo hi); eauto. replace (Nat.pred (length l)) with i by lia. exact Hs. } lra. }
  assert (exists s1, nth_error l (S i) = Some s1) as [s1 H1]. { destruct (nth_error l (S i)) eqn:E; eauto. apply nth_error_None in E. lia. }
  assert (M1 : smin s1 = smax s). { destruct PT as [_ Ch]. eapply (chain_nth l lo hi); eauto. }
  apply Rltb_true in Hab. cbv zeta. rewrite Hab. apply Rltb_true in Hab.
  replace (Z.of_nat i + 1)%Z with (Z.of_nat (S i)) by lia.
  assert (G : ((0 <=? Z.of_nat (S i)) && (Z.of_nat (S i) <? Z.of_nat (length l)))%Z = true) by (apply andb_true_iff; split; [apply Z.leb_le|apply Z.ltb_lt]; lia). rewrite G.
  destruct (IH (S i) s1 H1) as [j [sj [J1 [J2 [J3 J4]]]]]; [lia| rewrite M1; lra|auto|].
  rewrite J4. cbn [bind]. exists j, sj. split; [lia|]. rewrite (path_up _ _ _ _ Hs) by lia. auto.
Qed.

Lemma visit_down fuel i s a b : nth_error l i = Some s -> (i < fuel)%nat ->
  lo <= b <= smax s -> b < a ->
  exists j sj, (j <= i)%nat /\ nth_error l j = Some sj /\ contains sj b = true /\ visit fuel l a b (Z.of_nat i) = Ret (path l i j).
Proof.
  revert i s; induction fuel as [|f IH]; intros i s Hs Hf Hb Hab; [lia|].
  assert (Hi : (i < length l)%nat) by (apply nth_error_Some; congruence).
  cbn [visit]. destruct (vget_in l (Z.of_nat i)) as [s' [V N]]; [lia|]. rewrite Nat2Z.id in N. rewrite Hs in N. injection N as <-.
  rewrite V. cbn [bind]. destruct (contains s b) eqn:C.
  { exists i, s. rewrite (path_one _ _ _ Hs). auto. }
  assert (Lt : b < smin s). { apply Rnot_le_lt. intros K. assert (contains s b = true) by (apply contains_R; lra). congruence. }
  destruct i as [|i].
  { exfalso. assert (smin s = lo). { destruct PT as [_ Ch]. eapply (chain_first l lo hi); eauto. } lra. }
  assert (exists s1, nth_error l i = Some s1) as [s1 H1]. { destruct (nth_error l i) eqn:E; eauto. apply nth_error_None in E. lia. }
  assert (M1 : smin s = smax s1). { destruct PT as [_ Ch]. eapply (chain_nth l lo hi); eauto. }
  assert (Hab' : Rltb a b = false) by (apply Rltb_false; lra). cbv zeta. rewrite Hab'.
  replace (Z.of_nat (S i) + -1)%Z with (Z.of_nat i) by lia.
  assert (G : ((0 <=? Z.of_nat i) && (Z.of_nat i <? Z.of_nat (length l)))%Z = true) by (apply andb_true_iff; split; [apply Z.leb_le|apply Z.ltb_lt]; lia). rewrite G.
  destruct (IH i s1 H1) as [j [sj [J1 [J2 [J3 J4]]]]]; [lia| rewrite <- M1; lra|auto|].
  rewrite J4. cbn [bind]. exists j, sj. split; [lia|]. rewrite (path_down _ _ _ _ Hs) by lia. auto.
Qed.

(** The whole of propagate: a consecutive run of sectors from one containing a to one containing b. *)
Lemma propagate_path a b : lo <= a <= hi -> lo <= b <= hi ->
  exists i j si sj, nth_error l i = Some si /\ contains si a = true /\ nth_error l j = Some sj /\ contains sj b = true /\
   (a <= b -> (i <= j)%nat) /\ (b <= a -> (j <= i)%nat) /\
   forall E y u, propagate l lo hi E y a b u = Ret (run (path l i j) E a b u (y, theta_start vm si E a b y)).
Proof.
  intros Ha Hb.
  assert (dom_contains lo hi a = true) as Da by (unfold dom_contains; simpl; apply andb_true_iff; rewrite !Rleb_true; lra).
  assert (dom_contains lo hi b = true) as Db by (unfold dom_contains; simpl; apply andb_true_iff; rewrite !Rleb_true; lra).
  assert (NL : l <> []) by apply PT.
  destruct (find_sector_correct l lo hi a (length l) PT (ord_l l OR) ltac:(lia)) as [i [Fi Fs]].
  destruct Fs as [[_ [Fi1 [si [Hs Hc]]]]|[K _]]; [|congruence].
  set (n := Z.to_nat i) in *. assert (Ei : i = Z.of_nat n) by lia.
  assert (CC := proj1 (contains_R si a) Hc).
  assert (VV : exists j sj, nth_error l j = Some sj /\ contains sj b = true /\ (a <= b -> (n <= j)%nat) /\ (b <= a -> (j <= n)%nat) /\ visit (length l) l a b (Z.of_nat n) = Ret (path l n j)).
  { destruct (Rtotal_order a b) as [L|[L|L]].
    - destruct (visit_up (length l) n si a b) as [j [sj [J1 [J2 [J3 J4]]]]]; auto; try lia; [lra|]. exists j, sj. repeat split; auto; intros; lra.
    - exists n, si. subst b. repeat split; auto. rewrite (path_one _ _ _ Hs).
      destruct (length l) eqn:Len; [destruct l; [congruence|discriminate]|]. cbn [visit].
      destruct (vget_in l (Z.of_nat n)) as [s' [V N]]; [lia|]. rewrite Nat2Z.id in N. rewrite Hs in N. injection N as <-. rewrite V. cbn [bind]. rewrite Hc. reflexivity.
    - destruct (visit_down (length l) n si a b) as [j [sj [J1 [J2 [J3 J4]]]]]; auto; try lia; [lra|]. exists j, sj. repeat split; auto; intros; lra. }
  destruct VV as [j [sj [J2 [J3 [J5 [J6 J4]]]]]].
  exists n, j, si, sj. repeat split; auto.
  intros E y u. unfold M_Core.propagate. rewrite Da, Db. cbn [negb orb]. rewrite Fi. cbn [bind].
  destruct (vget_in l i) as [s' [V N]]; [lia|]. fold n in N. rewrite Hs in N. injection N as <-. rewrite V. cbn [bind].
  rewrite prop_loop_visit, Ei, J4. reflexivity.
Qed.
End Dom.
End Props.
