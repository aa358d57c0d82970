(** Proofs about sector lookup (find_sector, findSector) and estimatePotentialMinimum. *)
From Coq Require Import String ZArith QArith List Bool Lia Reals Lra.
From Verif Require Import Base M_Sectors S_Sectors.
Import ListNotations.
Open Scope Z_scope.

Section Chain.
Context {T P : Type}.
Notation sec := (sector T P).

Lemma chain_nth (l : list sec) lo hi i s s' :
  chain lo hi l -> nth_error l i = Some s -> nth_error l (S i) = Some s' -> smin s' = smax s.
Proof.
  revert lo i; induction l as [|x r IH]; intros lo i H Hi Hi'.
  - destruct i; discriminate.
  - destruct H as [H1 H2]. destruct i as [|i]; simpl in *.
    + injection Hi as ->. destruct r as [|y r]; [discriminate|]. simpl in Hi'. injection Hi' as ->.
      destruct H2; auto.
    + eapply IH; eauto.
Qed.
Lemma chain_first (l : list sec) lo hi s :
  chain lo hi l -> nth_error l 0 = Some s -> smin s = lo.
Proof. destruct l; simpl; [discriminate|]. intros [? _] K. injection K as ->. auto. Qed.
Lemma chain_last (l : list sec) lo hi s :
  chain lo hi l -> nth_error l (Nat.pred (length l)) = Some s -> smax s = hi.
Proof.
  revert lo; induction l as [|x r IH]; intros lo H K; simpl in *; [discriminate|].
  destruct r as [|y r]; simpl in *.
  - injection K as ->. tauto.
  - destruct H as [_ H]. eapply IH; eauto.
Qed.
Lemma chain_app (l1 l2 : list sec) lo hi mid :
  chain lo mid l1 -> chain mid hi l2 -> chain lo hi (l1 ++ l2).
Proof. revert lo; induction l1; simpl; intros; subst; auto. destruct H; split; eauto. Qed.
Lemma chain_app_inv (l1 l2 : list sec) lo hi :
  chain lo hi (l1 ++ l2) -> exists mid, chain lo mid l1 /\ chain mid hi l2.
Proof.
  revert lo; induction l1 as [|x r IH]; simpl; intros lo H.
  - exists lo; auto.
  - destruct H as [A B]. destruct (IH _ B) as [m [C D]]. exists m; auto.
Qed.
End Chain.

Section Lookup.
Context {T : Type} `{OL : OrderLaws T} {P : Type}.
Notation sec := (sector T P).

(** well-ordered sector: its min is <= its max (in particular neither is NaN) *)
Definition ordered (l : list sec) : Prop := forall s, In s l -> sle (smin s) (smax s) = true.

Lemma nth_ordered l i s : ordered l -> nth_error l i = Some s -> sle (smin s) (smax s) = true.
Proof. intros O K. apply O. eapply nth_error_In; eauto. Qed.

Lemma chain_mono l lo hi i j si sj :
  chain lo hi l -> ordered l -> (i <= j)%nat -> nth_error l i = Some si -> nth_error l j = Some sj ->
  sle (smin si) (smin sj) = true /\ sle (smax si) (smax sj) = true.
Proof.
  intros C O Hij Hi. revert sj. induction Hij as [|j Hij IH]; intros sj Hj.
  - rewrite Hi in Hj; injection Hj as ->. pose proof (nth_ordered _ _ _ O Hi).
    split; apply le_refl_s; eauto using ok_le_l, ok_le_r.
  - destruct (nth_error l j) as [sm|] eqn:E.
    2:{ apply nth_error_None in E. assert (S j < length l)%nat by (apply nth_error_Some; congruence). lia. }
    destruct (IH sm eq_refl) as [A B]. pose proof (chain_nth l lo hi j sm sj C E Hj) as K.
    pose proof (nth_ordered _ _ _ O E). pose proof (nth_ordered _ _ _ O Hj).
    split; rewrite ?K in *; eauto using le_trans_s.
Qed.

Lemma contains_dom l lo hi i s p :
  chain lo hi l -> ordered l -> nth_error l i = Some s -> contains s p = true -> dom_contains lo hi p = true.
Proof.
  intros C O Hi K. unfold contains in K. apply andb_prop in K as [K1 K2].
  unfold dom_contains. apply andb_true_intro.
  assert (Hl : (i < length l)%nat) by (apply nth_error_Some; congruence).
  destruct (nth_error l 0) as [s0|] eqn:E0; [|apply nth_error_None in E0; lia].
  destruct (nth_error l (Nat.pred (length l))) as [sl|] eqn:El; [|apply nth_error_None in El; lia].
  pose proof (chain_first _ _ _ _ C E0) as F. pose proof (chain_last _ _ _ _ C El) as L. subst.
  assert (0 <= i)%nat by lia. assert (i <= Nat.pred (length l))%nat by lia.
  pose proof (chain_mono l _ _ 0 i s0 s C O H0 E0 Hi) as [A _].
  pose proof (chain_mono l _ _ i _ s sl C O H1 Hi El) as [_ B].
  split; eauto using le_trans_s.
Qed.

Lemma quot2 a b : 0 <= a -> a < b -> a <= a + Z.quot (b - a) 2 < b /\ (a + Z.quot (b - a) 2 = a -> b = a + 1).
Proof.
  intros. rewrite Z.quot_div_nonneg by lia.
  pose proof (Z.div_mod (b - a) 2). pose proof (Z.mod_pos_bound (b - a) 2). lia.
Qed.

(** Termination and absence of out-of-range accesses, for every scalar type and every
    comparison outcome (no law used). *)
Lemma find_sector_loop_total fuel (l : list sec) p a b :
  0 <= a -> a < b -> b <= Z.of_nat (length l) -> (Z.to_nat (b - a) <= fuel)%nat ->
  exists r, find_sector_loop fuel l p a b = Ret r /\
    (r = -1 \/ (a <= r < b /\ exists s, nth_error l (Z.to_nat r) = Some s /\ contains s p = true)).
Proof.
  revert a b; induction fuel as [|f IH]; intros a b Ha Hab Hb Hf; [lia|].
  simpl. pose proof (quot2 a b Ha Hab) as [Q1 Q2]. set (c := a + Z.quot (b - a) 2) in *.
  destruct (vget_in l c) as [s [-> Es]]; [lia|]. simpl.
  destruct (contains s p) eqn:Ec.
  - exists c; split; auto. right. split; [lia|]. eauto.
  - destruct (Z.eqb_spec c a) as [E|E].
    + exists (-1); auto.
    + destruct (slt p (smin s)).
      * destruct (IH a c) as [r [-> R]]; try lia. exists r; split; auto.
        destruct R as [R|[R R']]; [auto|right; split; [lia|auto]].
      * destruct (IH c b) as [r [-> R]]; try lia. exists r; split; auto.
        destruct R as [R|[R R']]; [auto|right; split; [lia|auto]].
Qed.

Lemma find_sector_loop_found fuel (l : list sec) lo hi p a b sa sb :
  chain lo hi l -> ordered l -> 0 <= a -> a < b -> b <= Z.of_nat (length l) ->
  nth_error l (Z.to_nat a) = Some sa -> nth_error l (Z.to_nat (b - 1)) = Some sb ->
  sle (smin sa) p = true -> sle p (smax sb) = true ->
  find_sector_loop fuel l p a b <> Ret (-1).
Proof.
  intros C O. revert a b sa sb; induction fuel as [|f IH]; intros a b sa sb Ha Hab Hb Ea Eb La Lb; [discriminate|].
  simpl. pose proof (quot2 a b Ha Hab) as [Q1 Q2]. set (c := a + Z.quot (b - a) 2) in *.
  destruct (vget_in l c) as [s [-> Es]]; [lia|]. simpl.
  destruct (contains s p) eqn:Ec; [intros K; injection K; lia|].
  destruct (Z.eqb_spec c a) as [E|E].
  - specialize (Q2 E). exfalso. rewrite E in *. replace (b - 1) with a in Eb by lia.
    rewrite Ea in *. injection Es as ->. injection Eb as ->. unfold contains in Ec. rewrite La, Lb in Ec. discriminate.
  - pose proof (nth_ordered _ _ _ O Es) as Os.
    destruct (slt p (smin s)) eqn:Lt.
    + assert (Hc : exists sc, nth_error l (Z.to_nat (c - 1)) = Some sc).
      { destruct (nth_error l (Z.to_nat (c - 1))) eqn:K; eauto. apply nth_error_None in K. lia. }
      destruct Hc as [sc Hc]. assert (smin s = smax sc).
      { eapply chain_nth; eauto. replace (S (Z.to_nat (c - 1))) with (Z.to_nat c) by lia. auto. }
      eapply (IH a c sa sc); eauto; try lia. rewrite <- H0. apply lt_le; auto.
    + eapply (IH c b s sb); eauto; try lia.
      apply nlt_le; eauto using ok_le_r, ok_le_l.
Qed.

Theorem find_sector_correct (l : list sec) lo hi p fuel :
  partition lo hi l -> ordered l -> (length l <= fuel)%nat ->
  exists r, find_sector fuel l p = Ret r /\
    ((dom_contains lo hi p = true /\ 0 <= r < Z.of_nat (length l) /\
      exists s, nth_error l (Z.to_nat r) = Some s /\ contains s p = true)
     \/ (dom_contains lo hi p = false /\ r = -1)).
Proof.
  intros [Hne C] O Hf. unfold find_sector.
  assert (Hl : (0 < length l)%nat) by (destruct l; simpl in *; [congruence|lia]).
  destruct (find_sector_loop_total fuel l p 0 (Z.of_nat (length l))) as [r [E R]]; try lia.
  exists r. split; auto.
  destruct R as [->|[R [s [Es Ec]]]].
  - right; split; auto. destruct (dom_contains lo hi p) eqn:D; auto. exfalso.
    unfold dom_contains in D. apply andb_prop in D as [D1 D2].
    destruct (nth_error l 0) as [s0|] eqn:E0; [|apply nth_error_None in E0; lia].
    destruct (nth_error l (Nat.pred (length l))) as [sl|] eqn:El; [|apply nth_error_None in El; lia].
    pose proof (chain_first _ _ _ _ C E0) as F. pose proof (chain_last _ _ _ _ C El) as L. subst lo hi.
    eapply (find_sector_loop_found fuel l _ _ p 0 (Z.of_nat (length l)) s0 sl); eauto; try lia.
    replace (Z.to_nat (Z.of_nat (length l) - 1)) with (Nat.pred (length l)) by lia. auto.
  - left. split; [eapply contains_dom; eauto|]. split; [lia|eauto].
Qed.

(** findSector on iterators: returns the last index (within [a,b)) whose min is <= x, or [a]. *)
Lemma findSectorIt_total fuel (l : list sec) x a b :
  0 <= a -> a < b -> b <= Z.of_nat (length l) -> (Z.to_nat (b - a) <= fuel)%nat ->
  exists r, findSectorIt fuel l x a b = Ret r /\ a <= r < b /\
    (r = a \/ exists s, nth_error l (Z.to_nat r) = Some s /\ slt x (smin s) = false) /\
    (r + 1 = b \/ exists s, nth_error l (Z.to_nat (r + 1)) = Some s /\ slt x (smin s) = true).
Proof.
  revert a b; induction fuel as [|f IH]; intros a b Ha Hab Hb Hf; [lia|].
  simpl. destruct (Z.leb_spec (b - a) 1).
  - exists a. repeat split; auto; try lia.
  - pose proof (quot2 a b Ha Hab) as [Q1 Q2]. set (c := a + Z.quot (b - a) 2) in *.
    assert (c <> a) by (intros E; specialize (Q2 E); lia).
    destruct (vget_in l c) as [s [-> Es]]; [lia|]. simpl.
    destruct (slt x (smin s)) eqn:Lt.
    + destruct (IH a c) as [r [-> [R1 [R2 R3]]]]; try lia.
      exists r; repeat split; auto; try lia.
      destruct R3 as [->|R3]; auto. right. exists s; auto.
    + destruct (IH c b) as [r [-> [R1 [R2 R3]]]]; try lia.
      exists r; repeat split; auto; try lia.
      destruct R2 as [->|R2]; auto. right. exists s; auto.
Qed.

Theorem estimate_min_correct (v0 : sec -> T) (l : list sec) :
  l <> [] -> (forall s, In s l -> ok (v0 s)) ->
  exists m, estimatePotentialMinimum v0 l = Ret m /\
    (exists s, In s l /\ v0 s = m) /\ (forall s, In s l -> sle m (v0 s) = true).
Proof.
  intros Hne Hok. destruct l as [|s0 r]; [congruence|]. simpl.
  assert (G : forall (r : list sec) m, ok m -> (forall s, In s r -> ok (v0 s)) ->
    let m' := fold_left (fun m s' => std_min m (v0 s')) r m in
    ok m' /\ (m' = m \/ exists s, In s r /\ v0 s = m') /\ sle m' m = true /\ (forall s, In s r -> sle m' (v0 s) = true)).
  { clear. induction r as [|y r IH]; simpl; intros m Om Or.
    - repeat split; auto using le_refl_s.
    - assert (Oy : ok (v0 y)) by auto.
      assert (Oz : ok (std_min m (v0 y))) by (unfold std_min; destruct (slt _ _); auto).
      destruct (IH (std_min m (v0 y)) Oz) as [A [B [C D]]]; auto.
      assert (M1 : sle (std_min m (v0 y)) m = true /\ sle (std_min m (v0 y)) (v0 y) = true).
      { unfold std_min. destruct (slt (v0 y) m) eqn:E; split; auto using le_refl_s, lt_le, nlt_le. }
      destruct M1 as [M1 M2].
      split; [auto|split; [|split]].
      + destruct B as [B|[s [B1 B2]]]; [|right; eauto].
        rewrite B. unfold std_min. destruct (slt (v0 y) m); eauto.
      + eauto using le_trans_s.
      + intros s [<-|K]; eauto using le_trans_s. }
  destruct (G r (v0 s0)) as [_ [B [C D]]]; [apply Hok; simpl; auto|intros; apply Hok; simpl; auto|].
  eexists; split; [reflexivity|split].
  - destruct B as [B|[s [B1 B2]]]; [rewrite B; exists s0; simpl; auto|exists s; simpl; auto].
  - intros s [<-|K]; auto.
Qed.
End Lookup.
