(** Proofs about the step size control of AutomaticSectorBuilder. *)
From Coq Require Import String ZArith QArith List Bool Lia Reals Lra.
From Verif Require Import Base M_Sectors S_Sectors S_Control P_Auto.
Import ListNotations.
Open Scope Z_scope.

Section Free.
Context {T : Type} `{Scalar T} {P : Type}.
Notation sec := (sector T P).
Variable pay : T -> T -> dir -> P.
Variable err : sec -> T.
Variable cmp : sec -> sec -> bool.
Variable powf : T -> T -> T.
Variable tol : T.
Notation tc := (too_coarse err tol).
Notation rchain := (refinement_chain err powf tol).

Lemma rchain_snoc l t s : rchain l t -> refines err powf tol t s -> rchain (l ++ [t]) s.
Proof.
  induction l as [|u l IH]; intros C R; [simpl; auto|]. destruct C as [C1 C2]. simpl app.
  destruct l as [|w l]; [simpl in *; auto|]. change ((u :: (w :: l) ++ [t])) with (u :: w :: (l ++ [t])).
  split; [exact C1|]. apply IH; auto.
Qed.

Lemma shrink_control fuel d (steps : Z) h xmin xmax s log k' h' a b s' log' (ts : list sec) :
  0 <= steps <= 10 -> d <> Dnone -> s = mk pay xmin xmax d -> h = ssub xmax xmin ->
  Z.of_nat (length ts) = steps -> rchain ts s -> Forall tc ts -> incl ts log -> In s log ->
  shrink_loop pay err powf tol fuel d steps h xmin xmax s log = Ret (k', h', a, b, s', log') ->
  exists ts' : list sec, Z.of_nat (length ts') = k' /\ k' <= 10 /\ rchain ts' s' /\ Forall tc ts' /\ incl ts' log' /\ In s' log' /\ incl log log' /\
    s' = mk pay a b d /\ h' = ssub b a /\ (~ tc s' \/ k' = 10).
Proof.
  revert steps h xmin xmax s log ts; induction fuel as [|f IH]; intros steps h xmin xmax s log ts Hs Hd Es Eh L C F I Is E.
  - cbn [shrink_loop] in E. destruct (slt tol (err s) && (steps <? 10) && slt c_1em3 h) eqn:Q; [discriminate|].
    injection E as <- <- <- <- <- <-. exists ts. repeat split; auto; try lia; [apply incl_refl|].
    destruct (Z.ltb_spec steps 10); [|right; lia]. left. intros [A B]. subst h s. unfold width in B. cbn [mk smin smax] in B, A.
    unfold c_1em3 in Q. cbn [mk smin smax] in Q. rewrite A, B in Q. discriminate.
  - cbn [shrink_loop] in E. destruct (slt tol (err s) && (steps <? 10) && slt c_1em3 h) eqn:Q.
    + apply andb_prop in Q as [Q Q3]. apply andb_prop in Q as [Q1 Q2]. apply Z.ltb_lt in Q2.
      assert (tc s) as Ts by (split; [auto|]; subst h s; exact Q3).
      apply IH with (ts := ts ++ [s]) in E; auto; try lia.
      * destruct E as (ts' & E1 & E2 & E3 & E4 & E5 & E6 & E7 & E8 & E9 & E10). exists ts'. repeat split; auto.
        intros x Hx. apply E7. apply in_or_app. auto.
      * rewrite app_length. simpl. lia.
      * apply rchain_snoc; [exact C|]. subst s h. split; [reflexivity|]. destruct d; try congruence; cbn [mk smin smax sdir]; split; reflexivity.
      * apply Forall_app. split; auto.
      * intros x Hx. apply in_app_or in Hx as [Hx|[<-|[]]]; apply in_or_app; left; auto.
      * apply in_or_app; right; left; reflexivity.
    + injection E as <- <- <- <- <- <-. exists ts. repeat split; auto; try lia; [apply incl_refl|].
      destruct (Z.ltb_spec steps 10); [|right; lia]. left. intros [A B]. subst h s. unfold width in B. cbn [mk smin smax] in B, A.
      unfold c_1em3 in Q. cbn [mk smin smax] in Q. rewrite A, B in Q. discriminate.
Qed.

Lemma grow_control fuel d left right steps h xmin xmax e s log h' s' log' :
  ~ tc s -> grow_loop pay err powf tol fuel d left right steps h xmin xmax e s log = Ret (h', s', log') -> In s log ->
  ~ tc s' /\ In s' log' /\ incl log log'.
Proof.
  revert steps h xmin xmax e s log; induction fuel as [|f IH]; intros steps h xmin xmax e s log Hs E Is.
  - cbn [grow_loop] in E. destruct (_ && _ && _); [discriminate|]. injection E as <- <- <-. repeat split; auto using incl_refl.
  - cbn [grow_loop] in E. destruct (slt e _ && _ && _).
    + match type of E with context [let '(_, _) := ?p in _] => destruct p as [a b] eqn:Ep end.
      destruct (slt tol (err (mk pay a b d))) eqn:Q.
      * injection E as <- <- <-. repeat split; auto; [apply in_or_app; auto|]. intros x Hx; apply in_or_app; auto.
      * apply IH in E.
        -- destruct E as (E1 & E2 & E3). repeat split; auto. intros x Hx. apply E3, in_or_app; auto.
        -- intros [A _]. congruence.
        -- apply in_or_app; right; left; reflexivity.
    + injection E as <- <- <-. repeat split; auto using incl_refl.
Qed.

(** a sector the control lets through *)
Definition let_through (log : list sec) (s : sec) : Prop :=
  In s log /\ (~ tc s \/ exists ts : list sec, length ts = 10%nat /\ rchain ts s /\ Forall tc ts /\ incl ts log).
Lemma let_through_incl log log' s : incl log log' -> let_through log s -> let_through log' s.
Proof.
  intros I [A B]. split; [apply I, A|]. destruct B as [B|(ts & B1 & B2 & B3 & B4)]; [left; auto|].
  right. exists ts. repeat split; auto. intros x Hx. apply I, B4, Hx.
Qed.
Lemma next_control h left right d log s h' log' :
  d <> Dnone -> next_sector pay err powf tol h left right d log = Ret (s, h', log') -> let_through log' s /\ incl log log'.
Proof.
  intros Hd E. unfold next_sector in E.
  match type of E with context [let '(_, _) := ?p in _] => destruct p as [a b] eqn:Ep end.
  destruct (shrink_loop pay err powf tol 11 d 0 (ssub b a) a b (mk pay a b d) (log ++ [mk pay a b d]))
    as [[[[[[k h1] a1] b1] s1] l1]| | |] eqn:S; try discriminate. cbn [bind] in E.
  apply shrink_control with (ts := []) in S; auto; try lia; try exact I; try (intros x []; fail); try (apply in_or_app; right; left; reflexivity).
  destruct S as (ts & S1 & S2 & S3 & S4 & S5 & S6 & S7 & S8 & S9 & S10).
  assert (incl log l1) as I1 by (intros x Hx; apply S7, in_or_app; auto).
  destruct (Z.eqb_spec k 0) as [->|K].
  - destruct S10 as [S10|]; [|lia].
    destruct (grow_loop pay err powf tol 11 d left right 0 h1 a1 b1 (err s1) s1 l1) as [[[h2 s2] l2]| | |] eqn:G; try discriminate.
    cbn [bind] in E. injection E as <- <- <-. apply grow_control in G; auto. destruct G as (G1 & G2 & G3).
    split; [split; auto|]. intros x Hx. auto.
  - injection E as <- <- <-. split; [|exact I1]. split; [exact S6|]. destruct S10 as [S10| ->]; [left; auto|].
    right. exists ts. repeat split; auto. lia.
Qed.

Lemma loop_control fuel lo hi fs bs f0 b0 hf hb fj bj log fs' bs' log' :
  Forall (let_through log) (f0 :: fs) -> Forall (let_through log) (b0 :: bs) ->
  auto_loop pay err cmp powf tol fuel lo hi fs bs f0 b0 hf hb fj bj log = Ret (fs', bs', log') ->
  Forall (let_through log') fs' /\ Forall (let_through log') bs'.
Proof.
  revert fs bs f0 b0 hf hb fj bj log; induction fuel as [|f IH]; intros fs bs f0 b0 hf hb fj bj log Ff Fb E.
  - simpl in E. destruct (seqb (smax f0) (smin b0)); [|discriminate]. injection E as <- <- <-. auto.
  - simpl in E. destruct (seqb (smax f0) (smin b0)); [injection E as <- <- <-; auto|].
    destruct (cmp b0 f0).
    + destruct (if seqb (smax f0) (next_fwd hi fj) then pop fj else Ret fj) as [fj'| | |]; try discriminate. cbn [bind] in E.
      destruct (next_sector pay err powf tol hf (smax f0) (std_min (smin b0) (next_fwd hi fj')) Dfwd log) as [[[s h'] l']| | |] eqn:N; try discriminate.
      cbn [bind] in E. apply next_control in N as [N1 N2]; [|discriminate]. apply IH in E; auto.
      * constructor; [exact N1|]. eapply Forall_impl; [|exact Ff]. intros a. apply let_through_incl, N2.
      * eapply Forall_impl; [|exact Fb]. intros a. apply let_through_incl, N2.
    + destruct (if seqb (smin b0) (next_bwd lo bj) then pop bj else Ret bj) as [bj'| | |]; try discriminate. cbn [bind] in E.
      destruct (next_sector pay err powf tol hb (std_max (smax f0) (next_bwd lo bj')) (smin b0) Dbwd log) as [[[s h'] l']| | |] eqn:N; try discriminate.
      cbn [bind] in E. apply next_control in N as [N1 N2]; [|discriminate]. apply IH in E; auto.
      * eapply Forall_impl; [|exact Ff]. intros a. apply let_through_incl, N2.
      * constructor; [exact N1|]. eapply Forall_impl; [|exact Fb]. intros a. apply let_through_incl, N2.
Qed.

Theorem build_control fuel jumps lo hi l m log :
  auto_build pay err cmp powf tol fuel jumps lo hi = Ret (l, m, log) -> Forall (let_through log) l.
Proof.
  intros E. unfold auto_build in E.
  match type of E with context [next_sector pay err powf tol ?h ?a ?b Dfwd []] =>
    destruct (next_sector pay err powf tol h a b Dfwd []) as [[[f0 hf] l1]| | |] eqn:N1; try discriminate end.
  cbn [bind] in E.
  match type of E with context [next_sector pay err powf tol ?h ?a ?b Dbwd l1] =>
    destruct (next_sector pay err powf tol h a b Dbwd l1) as [[[b0 hb] l2]| | |] eqn:N2; try discriminate end.
  cbn [bind] in E.
  destruct (auto_loop pay err cmp powf tol fuel lo hi [] [] f0 b0 hf hb jumps (rev jumps) l2) as [[[fs bs] lg]| | |] eqn:L; try discriminate.
  cbn [bind] in E. injection E as <- <- <-.
  apply next_control in N1 as [N1 _]; [|discriminate]. apply next_control in N2 as [N2 I2]; [|discriminate].
  apply loop_control in L; [|constructor; [eapply let_through_incl; eauto|constructor]|constructor; auto].
  destruct L as [L1 L2]. apply Forall_app. split; [|exact L2]. apply Forall_rev, L1.
Qed.
End Free.
