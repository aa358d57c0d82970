(** Proofs about AutomaticSectorBuilder. *)
From Coq Require Import String ZArith QArith List Bool Lia Reals Lra Permutation.
From Verif Require Import Base M_Sectors S_Sectors P_Lookup.
Import ListNotations.
Open Scope Z_scope.

(** ** Law-free part: any scalar type (IEEE doubles included) *)
Section Free.
Context {T : Type} `{Scalar T} {P : Type}.
Notation sec := (sector T P).
Variable pay : T -> T -> dir -> P.
Variable err : sec -> T.
Variable cmp : sec -> sec -> bool.
Variable powf : T -> T -> T.
Variable tol : T.

Definition anchored (d : dir) (left right : T) (s : sec) : Prop :=
  sdir s = d /\ (d = Dfwd -> smin s = left) /\ (d = Dbwd -> smax s = right).

Lemma shrink_total fuel d steps h xmin xmax s log left right :
  0 <= steps <= 10 -> (10 - Z.to_nat steps < fuel)%nat -> d <> Dnone ->
  anchored d left right s -> s = mk pay xmin xmax d ->
  exists steps' h' xmin' xmax' s' log',
    shrink_loop pay err powf tol fuel d steps h xmin xmax s log = Ret (steps', h', xmin', xmax', s', log')
    /\ steps <= steps' <= 10 /\ anchored d left right s' /\ s' = mk pay xmin' xmax' d.
Proof.
  revert steps h xmin xmax s log; induction fuel as [|f IH]; intros steps h xmin xmax s log Hs Hf Hd An Es; [lia|].
  simpl. destruct (slt tol (err s) && (steps <? 10) && slt c_1em3 h) eqn:C.
  - apply andb_prop in C as [C _]. apply andb_prop in C as [_ C]. apply Z.ltb_lt in C.
    match goal with |- context [shrink_loop pay err powf tol f d (steps + 1) ?h ?a ?b ?s ?l] =>
      destruct (IH (steps + 1) h a b s l) as [st' [h' [a' [b' [s' [l' [E [E1 [E2 E3]]]]]]]]] end; try lia; auto.
    + subst s. destruct An as [A1 [A2 A3]]. simpl in *. split; [reflexivity|].
      destruct d; simpl; split; intros; try discriminate; auto; try congruence.
    + exists st', h', a', b', s', l'. split; [exact E|split; [lia|auto]].
  - do 6 eexists. split; [reflexivity|]. split; [lia|auto].
Qed.

Lemma grow_total fuel d left right steps h xmin xmax e s log :
  0 <= steps <= 10 -> (10 - Z.to_nat steps < fuel)%nat -> d <> Dnone ->
  anchored d left right s -> s = mk pay xmin xmax d ->
  exists h' s' log',
    grow_loop pay err powf tol fuel d left right steps h xmin xmax e s log = Ret (h', s', log')
    /\ anchored d left right s'.
Proof.
  revert steps h xmin xmax e s log; induction fuel as [|f IH]; intros steps h xmin xmax e s log Hs Hf Hd An Es; [lia|].
  simpl grow_loop.
  destruct (slt e (sdiv tol (sofZ 2)) && (steps <? 10) && negb (seqb h (ssub right left))) eqn:C.
  - apply andb_prop in C as [C _]. apply andb_prop in C as [_ C]. apply Z.ltb_lt in C.
    match goal with |- context [let '(_, _) := ?p in _] => destruct p as [a b] eqn:Ep end.
    assert (An' : anchored d left right (mk pay a b d)).
    { subst s. destruct An as [A1 [A2 A3]]. simpl in *. split; [reflexivity|].
      destruct d; try congruence; destruct (sle e (sofZ 0)); injection Ep as <- <-; simpl;
        split; intros; try discriminate; auto. }
    destruct (slt tol (err (mk pay a b d))).
    + do 3 eexists; split; [reflexivity|auto].
    + apply IH; auto; lia.
  - do 3 eexists; split; [reflexivity|auto].
Qed.

Lemma next_total h left right d log :
  d <> Dnone ->
  exists s h' log', next_sector pay err powf tol h left right d log = Ret (s, h', log') /\ anchored d left right s.
Proof.
  intros Hd. unfold next_sector.
  match goal with |- context [let '(_, _) := ?p in _] => destruct p as [a b] eqn:Ep end.
  assert (An : anchored d left right (mk pay a b d)).
  { split; [reflexivity|]. destruct d; try congruence; injection Ep as <- <-; split; intros; try discriminate; auto. }
  destruct (shrink_total 11 d 0 (ssub b a) a b (mk pay a b d) (log ++ [mk pay a b d]) left right)
    as [st [h' [a' [b' [s' [l' [E [E1 [E2 E3]]]]]]]]]; auto; try lia.
  rewrite E. cbn [bind]. destruct (st =? 0).
  - destruct (grow_total 11 d left right 0 h' a' b' (err s') s' l') as [h2 [s2 [l2 [G G2]]]]; auto; try lia.
    rewrite G. cbn [bind]. eauto 10.
  - eauto 10.
Qed.

Definition all_dir (d : dir) (l : list sec) : Prop := forall s, In s l -> sdir s = d.

Lemma auto_loop_free fuel lo hi fs bs f0 b0 hf hb fj bj log fs' bs' log' :
  chain lo (smax f0) (rev (f0 :: fs)) -> chain (smin b0) hi (b0 :: bs) ->
  all_dir Dfwd (f0 :: fs) -> all_dir Dbwd (b0 :: bs) ->
  auto_loop pay err cmp powf tol fuel lo hi fs bs f0 b0 hf hb fj bj log = Ret (fs', bs', log') ->
  exists f b fr br, fs' = f :: fr /\ bs' = b :: br /\ seqb (smax f) (smin b) = true /\
    chain lo (smax f) (rev fs') /\ chain (smin b) hi bs' /\ all_dir Dfwd fs' /\ all_dir Dbwd bs'.
Proof.
  revert fs bs f0 b0 hf hb fj bj log; induction fuel as [|f IH]; intros fs bs f0 b0 hf hb fj bj log Cf Cb Df Db E.
  - simpl in E. destruct (seqb (smax f0) (smin b0)) eqn:Q; [|discriminate].
    injection E as <- <- <-. exists f0, b0, fs, bs. auto 10.
  - simpl in E. destruct (seqb (smax f0) (smin b0)) eqn:Q.
    { injection E as <- <- <-. exists f0, b0, fs, bs. auto 10. }
    destruct (cmp b0 f0).
    + destruct (if seqb (smax f0) (next_fwd hi fj) then pop fj else Ret fj) as [fj'| | |]; try discriminate. cbn [bind] in E.
      destruct (next_total hf (smax f0) (std_min (smin b0) (next_fwd hi fj')) Dfwd log) as [s [h' [l' [N A]]]]; [discriminate|].
      rewrite N in E. cbn [bind] in E. destruct A as [A1 [A2 A3]].
      eapply IH in E; eauto.
      * change (rev (s :: f0 :: fs)) with (rev (f0 :: fs) ++ [s]).
        eapply chain_app; eauto. simpl. split; auto.
      * intros x [<-|Hx]; auto.
    + destruct (if seqb (smin b0) (next_bwd lo bj) then pop bj else Ret bj) as [bj'| | |]; try discriminate. cbn [bind] in E.
      destruct (next_total hb (std_max (smax f0) (next_bwd lo bj')) (smin b0) Dbwd log) as [s [h' [l' [N A]]]]; [discriminate|].
      rewrite N in E. cbn [bind] in E. destruct A as [A1 [A2 A3]].
      eapply IH in E; eauto.
      * simpl. split; auto. rewrite (A3 eq_refl). simpl in Cb. exact Cb.
      * intros x [<-|Hx]; auto.
Qed.

Theorem auto_build_free fuel jumps lo hi l m log :
  auto_build pay err cmp powf tol fuel jumps lo hi = Ret (l, m, log) ->
  exists fs bs x y, l = fs ++ bs /\ fs <> [] /\ bs <> [] /\ m = Z.of_nat (length fs) - 1 /\
    chain lo x fs /\ chain y hi bs /\ seqb x y = true /\ all_dir Dfwd fs /\ all_dir Dbwd bs.
Proof.
  intros E. unfold auto_build in E.
  set (mid := sadd (smul c_midmax hi) (smul c_midmin lo)) in E.
  destruct (next_total (smul c_p33 (ssub hi lo)) lo (std_min mid (next_fwd hi jumps)) Dfwd []) as [f0 [hf [l1 [N1 [A1 [A2 A3]]]]]]; [discriminate|].
  destruct (next_total (smul c_p33 (ssub hi lo)) (std_max mid (next_bwd lo (rev jumps))) hi Dbwd l1) as [b0 [hb [l2 [N2 [B1 [B2 B3]]]]]]; [discriminate|].
  rewrite N1 in E. cbn [bind] in E. rewrite N2 in E. cbn [bind] in E.
  destruct (auto_loop pay err cmp powf tol fuel lo hi [] [] f0 b0 hf hb jumps (rev jumps) l2) as [[[fs bs] lg]| | |] eqn:L; try discriminate.
  simpl in E. injection E as <- <- <-.
  eapply auto_loop_free in L.
  - destruct L as [f [b [fr [br [-> [-> [Q [C1 [C2 [D1 D2]]]]]]]]]].
    exists (rev (f :: fr)), (b :: br), (smax f), (smin b). split; [auto|]. split; [|split; [discriminate|]].
    + simpl. destruct (rev fr); discriminate.
    + rewrite rev_length. split; [reflexivity|]. split; [auto|]. split; [auto|]. split; [auto|]. split; [|auto].
      intros s Hs. apply D1. apply in_rev. auto.
  - simpl. split; auto.
  - simpl. split; auto.
  - intros s [<-|[]]; auto.
  - intros s [<-|[]]; auto.
Qed.
End Free.

(** Over the reals the two fronts meet with equality. *)
Theorem auto_build_partition {P} (pay : R -> R -> dir -> P) err cmp powf tol fuel jumps lo hi l m log :
  auto_build pay err cmp powf tol fuel jumps lo hi = Ret (l, m, log) ->
  partition lo hi l /\ directions_ok l m /\ 0 <= m < Z.of_nat (length l) - 1.
Proof.
  intros E. apply auto_build_free in E as [fs [bs [x [y [-> [Hf [Hb [-> [C1 [C2 [Q [D1 D2]]]]]]]]]]]].
  simpl in Q. apply Reqb_true in Q. subst y.
  assert (0 < length fs)%nat by (destruct fs; simpl in *; [congruence|lia]).
  assert (0 < length bs)%nat by (destruct bs; simpl in *; [congruence|lia]).
  split; [|split].
  - split; [destruct fs; simpl in *; congruence|]. eapply chain_app; eauto.
  - intros k s K. destruct (Z.leb_spec (Z.of_nat k) (Z.of_nat (length fs) - 1)).
    + rewrite nth_error_app1 in K by lia. apply D1. eapply nth_error_In; eauto.
    + rewrite nth_error_app2 in K by lia. apply D2. eapply nth_error_In; eauto.
  - rewrite app_length. lia.
Qed.
