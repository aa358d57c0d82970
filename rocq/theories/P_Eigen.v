(** Proofs about eigenfunction evaluation. *)
From Coq Require Import String ZArith Reals List Bool Lia Lra.
From Verif Require Import Base M_Sectors S_Sectors P_Lookup M_Core M_Eigen.
Import ListNotations.
Open Scope Z_scope.

Section Bounds.
Context {T : Type} `{Scalar T} {P St A : Type}.
Variable prop : sector T P -> St -> T -> T -> A.
Variable zero : A.
Variables (secs : list (sector T P)) (lo hi : T) (steps : list St).
Hypothesis Hp : partition lo hi secs.
Hypothesis Hs : length steps = S (length secs).
Notation n := (Z.of_nat (length secs)).

Lemma n_pos : 0 < n.
Proof using Hp. clear Hs steps. destruct Hp as [N _]. destruct secs; [congruence|cbn; lia]. Qed.
Lemma ef_in_total i x : 0 <= i < n -> exists v, ef_in prop secs steps i x = Ret v.
Proof.
  intros Hi. unfold ef_in. destruct (vget_in secs i Hi) as (s & -> & _). cbn [bind].
  destruct (dir_eqb (sdir s) Dfwd).
  - destruct (vget_in steps i ltac:(rewrite Hs; lia)) as (y & -> & _). cbn [bind]. eauto.
  - destruct (vget_in steps (i + 1) ltac:(rewrite Hs; lia)) as (y & -> & _). cbn [bind]. eauto.
Qed.
Lemma first_sec : exists s, nth_error secs 0 = Some s /\ smin s = lo.
Proof using Hp.
  clear Hs steps.
  pose proof n_pos. destruct (nth_error secs 0) as [s|] eqn:E; [|apply nth_error_None in E; lia].
  exists s. split; auto. destruct Hp as [_ C]. eapply chain_first; eauto.
Qed.
Lemma last_sec : exists s, nth_error secs (Z.to_nat (n - 1)) = Some s /\ smax s = hi.
Proof using Hp.
  clear Hs steps.
  pose proof n_pos. destruct (nth_error secs (Z.to_nat (n - 1))) as [s|] eqn:E; [|apply nth_error_None in E; lia].
  exists s. split; auto. destruct Hp as [_ C]. eapply chain_last; eauto. rewrite <- E. f_equal. lia.
Qed.
(** the next sector position of the array loop *)
Lemma next_total i x : 0 <= i < n -> slt x lo || slt hi x = false ->
  exists s j, vget secs i = Ret s /\ 0 <= j < n /\
    (if slt x (smin s) then findSectorIt (length secs) secs x 0 i
     else if slt (smax s) x then findSectorIt (length secs) secs x (i + 1) n else Ret i) = Ret j /\
    ((j = i /\ slt x (smin s) = false /\ slt (smax s) x = false) \/
     (slt x (smin s) = true /\ j < i /\ (j = 0 \/ exists s', nth_error secs (Z.to_nat j) = Some s' /\ slt x (smin s') = false) /\
        (exists s', nth_error secs (Z.to_nat (j + 1)) = Some s' /\ slt x (smin s') = true)) \/
     (slt (smax s) x = true /\ i < j /\ (j = i + 1 \/ exists s', nth_error secs (Z.to_nat j) = Some s' /\ slt x (smin s') = false) /\
        (j + 1 = n \/ exists s', nth_error secs (Z.to_nat (j + 1)) = Some s' /\ slt x (smin s') = true))).
Proof using Hp.
  clear Hs steps.
  intros Hi Hx. apply orb_false_iff in Hx. destruct Hx as [Hl Hh].
  destruct (vget_in secs i Hi) as (s & Es & Es'). exists s.
  destruct (slt x (smin s)) eqn:L1.
  - assert (0 < i). { destruct (Z.eq_dec i 0) as [-> |]; [|lia]. destruct first_sec as (s0 & E0 & M0). change (Z.to_nat 0) with 0%nat in Es'. rewrite Es' in E0. injection E0 as <-. rewrite M0 in L1. congruence. }
    destruct (findSectorIt_total (length secs) secs x 0 i ltac:(lia) ltac:(lia) ltac:(lia) ltac:(lia)) as (r & Er & Hr & R1 & R2).
    exists r. split; auto. split; [lia|]. split; auto. right; left. split; auto. split; [lia|]. split; auto.
    destruct R2 as [R2|R2]; auto. exists s. rewrite R2. auto.
  - destruct (slt (smax s) x) eqn:L2.
    + assert (i < n - 1). { destruct (Z.eq_dec i (n - 1)) as [-> |]; [|lia]. destruct last_sec as (s0 & E0 & M0). rewrite Es' in E0. injection E0 as <-. rewrite M0 in L2. congruence. }
      destruct (findSectorIt_total (length secs) secs x (i + 1) n ltac:(lia) ltac:(lia) ltac:(lia) ltac:(lia)) as (r & Er & Hr & R1 & R2).
      exists r. split; auto. split; [lia|]. split; auto. right; right. split; auto. split; [lia|]. split; auto.
    + exists i. split; auto. split; [lia|]. split; auto.
Qed.

Theorem ef_scalar_total x : exists v, ef_scalar prop zero secs lo hi steps x = Ret v /\
  (slt x lo || slt hi x = true -> v = zero).
Proof.
  unfold ef_scalar. destruct (slt x lo || slt hi x).
  - eauto.
  - pose proof n_pos. destruct (findSectorIt_total (length secs) secs x 0 n ltac:(lia) ltac:(lia) ltac:(lia) ltac:(lia)) as (r & -> & Hr & _).
    cbn [bind]. destruct (ef_in_total r x Hr) as (v & ->). exists v. split; auto. discriminate.
Qed.
Theorem ef_array_total xs : forall i, 0 <= i < n ->
  exists vs, ef_array_loop prop zero secs lo hi steps i xs = Ret vs /\
    Forall2 (fun x v => if slt x lo || slt hi x then v = zero else exists j, 0 <= j < n /\ ef_in prop secs steps j x = Ret v) xs vs.
Proof.
  induction xs as [|x xs IH]; intros i Hi; cbn [ef_array_loop]; [eexists; split; [reflexivity|constructor]|].
  destruct (slt x lo || slt hi x) eqn:O.
  - destruct (IH i Hi) as (vs & -> & F). cbn [bind]. eexists; split; [reflexivity|]. constructor; auto. rewrite O. reflexivity.
  - destruct (next_total i x Hi O) as (s & j & Es & Hj & Ej & _). rewrite Es. cbn [bind]. rewrite Ej. cbn [bind].
    destruct (ef_in_total j x Hj) as (v & Ev). rewrite Ev. cbn [bind]. destruct (IH j Hj) as (vs & -> & F). cbn [bind].
    eexists; split; [reflexivity|]. constructor; auto. rewrite O. eauto.
Qed.
End Bounds.

Section Where.
Context {T : Type} `{OL : OrderLaws T} {P St A : Type}.
Variable prop : sector T P -> St -> T -> T -> A.
Variable zero : A.
Variables (secs : list (sector T P)) (lo hi : T) (steps : list St).
Hypothesis Hp : partition lo hi secs.
Hypothesis Ho : ordered secs.
Hypothesis Hs : length steps = S (length secs).
Notation n := (Z.of_nat (length secs)).

Lemma contains_of j s x : nth_error secs (Z.to_nat j) = Some s -> 0 <= j < n -> ok x -> slt x lo || slt hi x = false ->
  (j = 0 \/ slt x (smin s) = false \/ sle (smin s) x = true) ->
  (j + 1 = n \/ sle x (smax s) = true \/ exists s', nth_error secs (Z.to_nat (j + 1)) = Some s' /\ slt x (smin s') = true) ->
  contains s x = true.
Proof.
  intros Es Hj Okx O A1 A2. apply orb_false_iff in O. destruct O as [O1 O2].
  pose proof (nth_ordered _ _ _ Ho Es) as Or. pose proof Hp as [_ C].
  unfold contains. apply andb_true_intro. split.
  - destruct A2 as [A2|[A2|(s' & E' & L)]]; auto.
    + destruct (last_sec secs lo hi Hp) as (s0 & E0 & M0). replace (n - 1) with j in E0 by lia. rewrite Es in E0. injection E0 as <-.
      rewrite M0. apply nlt_le; auto. rewrite <- M0. eapply ok_le_r; eauto.
    + assert (K : smin s' = smax s). { eapply chain_nth; eauto. replace (S (Z.to_nat j)) with (Z.to_nat (j + 1)) by lia. exact E'. }
      rewrite <- K. apply lt_le; auto.
  - destruct A1 as [A1|[A1|A1]]; auto.
    + subst j. destruct (first_sec secs lo hi Hp) as (s0 & E0 & M0). change (Z.to_nat 0) with 0%nat in Es. rewrite Es in E0. injection E0 as <-.
      rewrite M0. apply nlt_le; auto. rewrite <- M0. eapply ok_le_l; eauto.
    + apply nlt_le; auto. eapply ok_le_l; eauto.
Qed.
(** pointwise evaluation: the sector used contains x and is the last such one *)
Lemma scalar_where x : ok x -> slt x lo || slt hi x = false ->
  exists j s, 0 <= j < n /\ nth_error secs (Z.to_nat j) = Some s /\ contains s x = true /\
    (j + 1 = n \/ exists s', nth_error secs (Z.to_nat (j + 1)) = Some s' /\ slt x (smin s') = true) /\
    ef_scalar prop zero secs lo hi steps x = ef_in prop secs steps j x.
Proof.
  intros Okx O. unfold ef_scalar. rewrite O.
  assert (0 < n) by (destruct Hp as [N _]; destruct secs; [congruence|cbn; lia]).
  destruct (findSectorIt_total (length secs) secs x 0 n ltac:(lia) ltac:(lia) ltac:(lia) ltac:(lia)) as (r & -> & Hr & R1 & R2).
  destruct (vget_in secs r Hr) as (s & _ & Es). exists r, s. split; auto. split; auto. split; [|split; auto].
  eapply contains_of; eauto.
  - destruct R1 as [R1|(s' & E' & L)]; auto. rewrite Es in E'. injection E' as <-. auto.
  - destruct R2 as [R2|R2]; auto.
Qed.
Lemma array_where xs : forall i, 0 <= i < n -> Forall ok xs ->
  exists vs, ef_array_loop prop zero secs lo hi steps i xs = Ret vs /\
    Forall2 (fun x v => if slt x lo || slt hi x then v = zero
       else exists j s, 0 <= j < n /\ nth_error secs (Z.to_nat j) = Some s /\ contains s x = true /\ ef_in prop secs steps j x = Ret v) xs vs.
Proof.
  induction xs as [|x xs IH]; intros i Hi Okx; cbn [ef_array_loop]; [eexists; split; [reflexivity|constructor]|].
  inversion Okx as [|? ? Ox Oxs]; subst.
  destruct (slt x lo || slt hi x) eqn:O.
  - destruct (IH i Hi Oxs) as (vs & -> & F). cbn [bind]. eexists; split; [reflexivity|]. constructor; auto. rewrite O. reflexivity.
  - destruct (next_total secs lo hi Hp i x Hi O) as (s & j & Es & Hj & Ej & Cs). rewrite Es. cbn [bind]. rewrite Ej. cbn [bind].
    destruct (ef_in_total prop secs steps Hs j x Hj) as (v & Ev). rewrite Ev. cbn [bind]. destruct (IH j Hj Oxs) as (vs & -> & F). cbn [bind].
    eexists; split; [reflexivity|]. constructor; auto. rewrite O.
    destruct (vget_in secs j Hj) as (sj & _ & Esj). exists j, sj. split; auto. split; auto. split; auto.
    apply vget_ret in Es. destruct Es as [_ Es].
    pose proof (nth_ordered _ _ _ Ho Es) as Ors.
    destruct Cs as [(-> & L1 & L2)|[(L1 & Lj & R1 & R2)|(L1 & Lj & R1 & R2)]].
    + rewrite Es in Esj. injection Esj as <-. eapply contains_of; eauto. right; left. apply nlt_le; auto. eapply ok_le_r; eauto.
    + eapply contains_of; eauto. destruct R1 as [R1|(s' & E' & L)]; auto. rewrite Esj in E'. injection E' as <-. auto.
    + assert (Emin : sle (smin sj) x = true \/ slt x (smin sj) = false).
      { destruct R1 as [R1|(s' & E' & L)]; [|right; rewrite Esj in E'; injection E' as <-; auto].
        left. assert (K : smin sj = smax s). { destruct Hp as [_ C]. eapply chain_nth; eauto. replace (S (Z.to_nat i)) with (Z.to_nat j) by lia. exact Esj. }
        rewrite K. apply lt_le; auto. }
      eapply contains_of; eauto; tauto.
Qed.
End Where.
