(** Step size control over the reals: pieces with error 0 become single sectors. *)
From Coq Require Import String ZArith QArith List Bool Lia Reals Lra Sorted.
From Verif Require Import Base M_Sectors S_Sectors S_Control P_Auto P_Control.
Import ListNotations.
Open Scope R_scope.

Section Zero.
Context {P : Type}.
Notation sec := (sector R P).
Variable pay : R -> R -> dir -> P.
Variable err : sec -> R.
Variable cmp : sec -> sec -> bool.
Variable powf : R -> R -> R.
Variable tol : R.
Hypothesis Htol : 0 < tol.

Lemma shrink_stop fuel d steps h a b s log : (slt tol (err s) && (steps <? 10)%Z && slt c_1em3 h)%bool = false ->
  shrink_loop pay err powf tol fuel d steps h a b s log = Ret (steps, h, a, b, s, log).
Proof using. intro Q. destruct fuel; cbn [shrink_loop]; rewrite Q; reflexivity. Qed.
Lemma grow_stop fuel d left right steps h a b e s log : (slt e (sdiv tol (sofZ 2)) && (steps <? 10)%Z && negb (seqb h (ssub right left)))%bool = false ->
  grow_loop pay err powf tol fuel d left right steps h a b e s log = Ret (h, s, log).
Proof using. intro Q. destruct fuel; cbn [grow_loop]; rewrite Q; reflexivity. Qed.
Lemma grow_zero f d left right steps h a b s log : (steps < 10)%Z -> Reqb h (right - left) = false ->
  grow_loop pay err powf tol (S f) d left right steps h a b 0 s log =
  let s' := mk pay left right d in
  if Rltb tol (err s') then Ret (smax s - smin s, s, log ++ [s'])
  else grow_loop pay err powf tol f d left right (steps + 1) (right - left) left right (err s') s' (log ++ [s']).
Proof using Htol.
  intros Hs Q. cbn [grow_loop]. assert (slt 0 (sdiv tol (sofZ 2)) = true) as Q1.
  { change (@slt R _) with Rltb. apply Rltb_true. change (sdiv tol (sofZ 2)) with (tol / 2). lra. }
  rewrite Q1, (proj2 (Z.ltb_lt steps 10) Hs). change (@seqb R _) with Reqb. change (@ssub R _) with Rminus. rewrite Q. cbn [negb andb].
  assert (sle 0 (sofZ 0) = true) as Q2 by (apply Rleb_true; simpl; lra). rewrite Q2. reflexivity.
Qed.

Lemma next_zero h left right d log s h' log' :
  d <> Dnone -> next_sector pay err powf tol h left right d log = Ret (s, h', log') ->
  (forall t, In t log' -> err t = 0) -> smin s = left /\ smax s = right.
Proof using Htol.
  intros Hd E Z. pose proof E as E0. apply next_control in E0 as [_ _]; [|exact Hd].
  unfold next_sector in E.
  match type of E with context [let '(_, _) := ?p in _] => destruct p as [a b] eqn:Ep end.
  set (s0 := mk pay a b d) in *.
  assert (Anc : match d with Dfwd => a = left | _ => b = right end).
  { destruct d; try congruence; injection Ep as <- <-; reflexivity. }
  assert (err s0 = 0) as Z0.
  { apply Z. destruct (shrink_loop pay err powf tol 11 d 0 (ssub b a) a b s0 (log ++ [s0])) as [[[[[[k h1] a1] b1] s1] l1]| | |] eqn:S; try discriminate.
    cbn [bind] in E.
    apply (shrink_control _ _ _ _ 11 d 0 (ssub b a) a b s0 (log ++ [s0]) k h1 a1 b1 s1 l1 []) in S; auto; try lia;
      [|exact I|intros x []|apply in_or_app; right; left; reflexivity].
    destruct S as (ts & S1 & S2 & S3 & S4 & S5 & S6 & S7 & S8 & S9 & S10).
    assert (In s0 l1) as I1 by (apply S7, in_or_app; right; left; reflexivity).
    destruct (k =? 0)%Z eqn:K.
    - destruct (grow_loop pay err powf tol 11 d left right 0 h1 a1 b1 (err s1) s1 l1) as [[[h2 s2] l2]| | |] eqn:G; try discriminate.
      cbn [bind] in E. injection E as <- <- <-. apply Z.eqb_eq in K. subst k. destruct S10 as [S10|]; [|lia].
      apply grow_control in G; auto. apply G. exact I1.
    - injection E as <- <- <-. exact I1. }
  assert (shrink_loop pay err powf tol 11 d 0 (ssub b a) a b s0 (log ++ [s0]) = Ret (0%Z, ssub b a, a, b, s0, log ++ [s0])) as S.
  { apply shrink_stop. rewrite Z0. change (@slt R _) with Rltb. destruct (Rltb tol 0) eqn:Q; [apply Rltb_true in Q; lra|]. reflexivity. }
  rewrite S in E. cbn [bind] in E. change (0 =? 0)%Z with true in E. cbn match in E. rewrite Z0 in E.
  destruct (Reqb (b - a) (right - left)) eqn:Q.
  - rewrite grow_stop in E by (change (@seqb R _) with Reqb; change (@ssub R _) with Rminus; rewrite Q; cbn [negb]; apply andb_false_r).
    cbn [bind] in E. injection E as <- <- <-. apply Reqb_true in Q. cbn [s0 mk smin smax]. destruct d; try congruence; split; lra.
  - rewrite grow_zero in E by (exact Q || lia). cbv zeta in E.
    set (s1 := mk pay left right d) in *.
    destruct (Rltb tol (err s1)) eqn:Q3.
    + cbn [bind] in E. injection E as <- <- <-. assert (err s1 = 0) as Z1 by (apply Z; apply in_or_app; right; left; reflexivity).
      apply Rltb_true in Q3. lra.
    + rewrite grow_stop in E.
      * cbn [bind] in E. injection E as <- <- <-. split; reflexivity.
      * change (@seqb R _) with Reqb. change (@ssub R _) with Rminus. rewrite (proj2 (Reqb_true (right - left) (right - left)) eq_refl). cbn [negb]. apply andb_false_r.
Qed.

Lemma min_or (a b : R) : std_min a b = a \/ std_min a b = b.
Proof. unfold std_min. destruct (slt b a); auto. Qed.
Lemma max_or (a b : R) : std_max a b = a \/ std_max a b = b.
Proof. unfold std_max. destruct (slt a b); auto. Qed.

Section Cuts.
Variable lo hi mid : R.
Variable jumps : list R.
Definition cut (x : R) : Prop := x = lo \/ x = hi \/ x = mid \/ In x jumps.
Definition cuts (s : sec) : Prop := cut (smin s) /\ cut (smax s).

Lemma fwd_cut fj : incl fj jumps -> cut (next_fwd hi fj).
Proof using. intro I. destruct fj as [|j r]; cbn [next_fwd]; [unfold cut; auto|]. right. right. right. apply I. left; reflexivity. Qed.
Lemma bwd_cut fj : incl fj jumps -> cut (next_bwd lo fj).
Proof using. intro I. destruct fj as [|j r]; cbn [next_bwd]; [unfold cut; auto|]. right. right. right. apply I. left; reflexivity. Qed.

Lemma pop_fwd (x y : R) (fj fj' : list R) : (if Reqb x y then pop fj else Ret fj) = Ret fj' -> incl fj' fj.
Proof using. destruct (Reqb x y); [destruct fj; [discriminate|]|]; intro E; injection E as <-; [apply incl_tl|]; apply incl_refl. Qed.
Lemma loop_incl fuel fs bs f0 b0 hf hb fj bj log fs' bs' log' :
  auto_loop pay err cmp powf tol fuel lo hi fs bs f0 b0 hf hb fj bj log = Ret (fs', bs', log') ->
  incl log log' /\ incl (f0 :: fs) fs' /\ incl (b0 :: bs) bs'.
Proof using.
  revert fs bs f0 b0 hf hb fj bj log. induction fuel as [|f IH]; intros fs bs f0 b0 hf hb fj bj log E.
  - simpl in E. destruct (Reqb (smax f0) (smin b0)); [|discriminate]. injection E as <- <- <-. auto using incl_refl.
  - simpl in E. destruct (Reqb (smax f0) (smin b0)); [injection E as <- <- <-; auto using incl_refl|].
    destruct (cmp b0 f0).
    + destruct (if Reqb (smax f0) (next_fwd hi fj) then pop fj else Ret fj) as [fj'| | |] eqn:Pj; try discriminate. cbn [bind] in E.
      destruct (next_sector pay err powf tol hf (smax f0) (std_min (smin b0) (next_fwd hi fj')) Dfwd log) as [[[s h'] l']| | |] eqn:N; try discriminate.
      cbn [bind] in E. apply next_control in N as [_ N2]; [|discriminate]. apply IH in E as (E1 & E2 & E3).
      split; [|split; [|exact E3]]; intros x Hx; auto. apply E2. right; exact Hx.
    + destruct (if Reqb (smin b0) (next_bwd lo bj) then pop bj else Ret bj) as [bj'| | |] eqn:Pj; try discriminate. cbn [bind] in E.
      destruct (next_sector pay err powf tol hb (std_max (smax f0) (next_bwd lo bj')) (smin b0) Dbwd log) as [[[s h'] l']| | |] eqn:N; try discriminate.
      cbn [bind] in E. apply next_control in N as [_ N2]; [|discriminate]. apply IH in E as (E1 & E2 & E3).
      split; [|split; [exact E2|]]; intros x Hx; auto. apply E3. right; exact Hx.
Qed.
Lemma loop_cuts fuel fs bs f0 b0 hf hb fj bj log fs' bs' log' :
  Forall cuts (f0 :: fs) -> Forall cuts (b0 :: bs) -> incl fj jumps -> incl bj jumps ->
  auto_loop pay err cmp powf tol fuel lo hi fs bs f0 b0 hf hb fj bj log = Ret (fs', bs', log') ->
  (forall t, In t log' -> err t = 0) -> Forall cuts fs' /\ Forall cuts bs'.
Proof using Htol.
  revert fs bs f0 b0 hf hb fj bj log. induction fuel as [|f IH]; intros fs bs f0 b0 hf hb fj bj log Ff Fb Ij Ib E Z.
  - simpl in E. destruct (Reqb (smax f0) (smin b0)); [|discriminate]. injection E as <- <- <-. auto.
  - simpl in E. destruct (Reqb (smax f0) (smin b0)); [injection E as <- <- <-; auto|].
    inversion Ff as [|? ? [_ X] _]; subst. inversion Fb as [|? ? [Y _] _]; subst.
    destruct (cmp b0 f0).
    + destruct (if Reqb (smax f0) (next_fwd hi fj) then pop fj else Ret fj) as [fj'| | |] eqn:Pj; try discriminate. cbn [bind] in E.
      apply pop_fwd in Pj. assert (incl fj' jumps) as Ij' by (intros x Hx; auto).
      destruct (next_sector pay err powf tol hf (smax f0) (std_min (smin b0) (next_fwd hi fj')) Dfwd log) as [[[s h'] l']| | |] eqn:N; try discriminate.
      cbn [bind] in E. pose proof (loop_incl _ _ _ _ _ _ _ _ _ _ _ _ _ E) as (L1 & _ & _). apply next_zero in N; [|discriminate|auto].
      eapply IH; [|exact Fb|exact Ij'|exact Ib|exact E|exact Z]. constructor; [|exact Ff]. unfold cuts. destruct N as [-> ->].
      split; [exact X|]. destruct (min_or (smin b0) (next_fwd hi fj')) as [-> | ->]; [exact Y|apply fwd_cut, Ij'].
    + destruct (if Reqb (smin b0) (next_bwd lo bj) then pop bj else Ret bj) as [bj'| | |] eqn:Pj; try discriminate. cbn [bind] in E.
      apply pop_fwd in Pj. assert (incl bj' jumps) as Ij' by (intros x Hx; auto).
      destruct (next_sector pay err powf tol hb (std_max (smax f0) (next_bwd lo bj')) (smin b0) Dbwd log) as [[[s h'] l']| | |] eqn:N; try discriminate.
      cbn [bind] in E. pose proof (loop_incl _ _ _ _ _ _ _ _ _ _ _ _ _ E) as (L1 & _ & _). apply next_zero in N; [|discriminate|auto].
      eapply IH; [exact Ff| |exact Ij|exact Ij'|exact E|exact Z]. constructor; [|exact Fb]. unfold cuts. destruct N as [-> ->].
      split; [|exact Y]. destruct (max_or (smax f0) (next_bwd lo bj')) as [-> | ->]; [exact X|apply bwd_cut, Ij'].
Qed.
End Cuts.

Lemma build_cuts fuel jumps lo hi l m log :
  auto_build pay err cmp powf tol fuel jumps lo hi = Ret (l, m, log) -> (forall t, In t log -> err t = 0) ->
  Forall (cuts lo hi (4956864123 / 10000000000 * hi + 5043135877 / 10000000000 * lo) jumps) l.
Proof using Htol.
  intros E Z. unfold auto_build in E.
  assert (sadd (smul c_midmax hi) (smul c_midmin lo) = 4956864123 / 10000000000 * hi + 5043135877 / 10000000000 * lo) as Em.
  { reflexivity. }
  rewrite Em in E. set (mid := 4956864123 / 10000000000 * hi + 5043135877 / 10000000000 * lo) in *.
  match type of E with context [next_sector pay err powf tol ?h ?a ?b Dfwd []] =>
    destruct (next_sector pay err powf tol h a b Dfwd []) as [[[f0 hf] l1]| | |] eqn:N1; try discriminate end.
  cbn [bind] in E.
  match type of E with context [next_sector pay err powf tol ?h ?a ?b Dbwd l1] =>
    destruct (next_sector pay err powf tol h a b Dbwd l1) as [[[b0 hb] l2]| | |] eqn:N2; try discriminate end.
  cbn [bind] in E.
  destruct (auto_loop pay err cmp powf tol fuel lo hi [] [] f0 b0 hf hb jumps (rev jumps) l2) as [[[fs bs] lg]| | |] eqn:L; try discriminate.
  cbn [bind] in E. injection E as <- <- <-.
  pose proof (loop_incl _ _ _ _ _ _ _ _ _ _ _ _ _ _ _ L) as (L1 & _ & _).
  pose proof N2 as N2'. apply next_control in N2' as [_ I2]; [|discriminate].
  apply next_zero in N1; [|discriminate|auto]. apply next_zero in N2; [|discriminate|auto].
  assert (incl (rev jumps) jumps) as Ir by (intros x Hx; apply in_rev; exact Hx).
  apply (loop_cuts lo hi mid jumps) in L; [|constructor; [|constructor]|constructor; [|constructor]|apply incl_refl|exact Ir|exact Z].
  - destruct L as [La Lb]. apply Forall_app. split; [apply Forall_rev; exact La|exact Lb].
  - unfold cuts. destruct N1 as [-> ->]. split; [unfold cut; auto|].
    destruct (min_or mid (next_fwd hi jumps)) as [-> | ->]; [unfold cut; auto|apply fwd_cut, incl_refl].
  - unfold cuts. destruct N2 as [-> ->]. split; [|unfold cut; auto].
    destruct (max_or mid (next_bwd lo (rev jumps))) as [-> | ->]; [unfold cut; auto|apply bwd_cut, Ir].
Qed.

(** the first sector is never refined when it is at most 1e-3 wide *)
Lemma build_first fuel jumps lo hi l m log :
  lo <= hi -> (forall j, In j jumps -> lo + 33 / 100 * (hi - lo) <= j) -> 33 / 100 * (hi - lo) <= 1 / 1000 ->
  auto_build pay err cmp powf tol fuel jumps lo hi = Ret (l, m, log) ->
  let s := mk pay lo (lo + 33 / 100 * (hi - lo)) Dfwd in tol / 2 <= err s -> In s l.
Proof using.
  intros Hl Hj Hw E s He. unfold auto_build in E.
  match type of E with context [next_sector pay err powf tol ?h ?a ?b Dfwd []] =>
    destruct (next_sector pay err powf tol h a b Dfwd []) as [[[f0 hf] l1]| | |] eqn:N1; try discriminate end.
  assert (f0 = s) as ->.
  { unfold next_sector in N1. cbv zeta in N1. change (@slt R _) with Rltb in N1. change (@ssub R _) with Rminus in N1. change (@sadd R _) with Rplus in N1. change (@smul R _) with Rmult in N1.
    assert (c_p33 = 33 / 100) as Ec by (unfold c_p33; simpl; lra). rewrite Ec in N1.
    match type of N1 with context [Rltb ?a ?b] => destruct (Rltb a b) eqn:Q end.
    - exfalso. apply Rltb_true in Q. match type of Q with std_min ?a ?b < _ => destruct (min_or a b) as [W|W]; rewrite W in Q end.
      + unfold c_midmax, c_midmin in Q. simpl in Q. lra.
      + destruct jumps as [|j r]; cbn [next_fwd] in Q; [lra|]. specialize (Hj j (or_introl eq_refl)). lra.
    - fold s in N1. assert (lo + 33 / 100 * (hi - lo) - lo = 33 / 100 * (hi - lo)) as Ew by ring. rewrite Ew in N1.
      assert (shrink_loop pay err powf tol 11 Dfwd 0 (33 / 100 * (hi - lo)) lo (lo + 33 / 100 * (hi - lo)) s ([] ++ [s])
        = Ret (0%Z, 33 / 100 * (hi - lo), lo, lo + 33 / 100 * (hi - lo), s, [] ++ [s])) as S.
      { apply shrink_stop. assert (slt c_1em3 (33 / 100 * (hi - lo)) = false) as Q2.
        { change (@slt R _) with Rltb. apply Rltb_false. unfold c_1em3. simpl. lra. }
        rewrite Q2. apply andb_false_r. }
      rewrite S in N1. cbn [bind] in N1. change (0 =? 0)%Z with true in N1. cbv iota in N1.
      assert (slt (err s) (sdiv tol (sofZ 2)) = false) as Q3.
      { change (@slt R _) with Rltb. apply Rltb_false. change (sdiv tol (sofZ 2)) with (tol / 2). exact He. }
      rewrite grow_stop in N1 by (rewrite Q3; reflexivity). cbn [bind] in N1. injection N1 as <- _ _. reflexivity. }
  cbn [bind] in E.
  match type of E with context [next_sector pay err powf tol ?h ?a ?b Dbwd l1] =>
    destruct (next_sector pay err powf tol h a b Dbwd l1) as [[[b0 hb] l2]| | |] eqn:N2; try discriminate end.
  cbn [bind] in E.
  destruct (auto_loop pay err cmp powf tol fuel lo hi [] [] s b0 hf hb jumps (rev jumps) l2) as [[[fs bs] lg]| | |] eqn:L; try discriminate.
  cbn [bind] in E. injection E as <- <- <-. apply loop_incl in L as (_ & L2 & _). apply in_or_app. left. rewrite <- in_rev. apply L2. left. reflexivity.
Qed.
End Zero.
