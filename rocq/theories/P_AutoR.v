(** AutomaticSectorBuilder over the reals: jumps, termination, evaluation points. *)
From Coq Require Import String ZArith QArith List Bool Lia Reals Lra Sorted.
From Verif Require Import Base M_Sectors S_Sectors P_Lookup P_Auto.
Import ListNotations.
Open Scope R_scope.

Ltac rb := repeat match goal with
  | H : context [Rltb ?a ?b] |- _ => let E := fresh "E" in destruct (Rltb a b) eqn:E; [apply Rltb_true in E|apply Rltb_false in E]
  | H : context [Rleb ?a ?b] |- _ => let E := fresh "E" in destruct (Rleb a b) eqn:E; [apply Rleb_true in E|apply Rleb_false in E]
  | |- context [Rltb ?a ?b] => let E := fresh "E" in destruct (Rltb a b) eqn:E; [apply Rltb_true in E|apply Rltb_false in E]
  | |- context [Rleb ?a ?b] => let E := fresh "E" in destruct (Rleb a b) eqn:E; [apply Rleb_true in E|apply Rleb_false in E]
  end.

Lemma INR_unbounded (x : R) : exists n, x < INR n.
Proof.
  destruct (archimed x) as [A _]. exists (Z.to_nat (Z.max 0 (up x))).
  rewrite INR_IZR_INZ, Z2Nat.id by lia. eapply Rlt_le_trans; [exact A|]. apply IZR_le. lia.
Qed.

Section RealBuilder.
Context {P : Type}.
Notation sec := (sector R P).
Variable pay : R -> R -> dir -> P.
Variable err : sec -> R.
Variable cmp : sec -> sec -> bool.
Variable powf : R -> R -> R.
Variable tol : R.
Hypothesis pow_shrink : forall e, tol < e -> powf tol e <= 1.
Hypothesis pow_grow : forall e, 0 < e -> e < tol / 2 -> 1 <= powf tol e.

Definition within (left right : R) (s : sec) : Prop := left <= smin s /\ smin s < smax s /\ smax s <= right.

Lemma c1em3 : (c_1em3 : R) = 1 / 1000. Proof. reflexivity. Qed.
Lemma cp1 : (c_p1 : R) = 1 / 10. Proof. reflexivity. Qed.
Lemma cp99 : (c_p99 : R) = 99 / 100. Proof. reflexivity. Qed.

Lemma shrink_R fuel d steps h xmin xmax s log left right steps' h' xmin' xmax' s' log' :
  d <> Dnone -> anchored d left right s -> s = mk pay xmin xmax d -> h = xmax - xmin -> within left right s ->
  shrink_loop pay err powf tol fuel d steps h xmin xmax s log = Ret (steps', h', xmin', xmax', s', log') ->
  (steps' = steps /\ s' = s /\ h' = h /\ xmin' = xmin /\ xmax' = xmax /\ log' = log) \/
  ((steps < steps')%Z /\ 1/10000 <= h' /\ h' = smax s' - smin s' /\ within left right s' /\
   exists new, log' = log ++ new /\ forall x, In x new -> within left right x).
Proof.
  revert steps h xmin xmax s log; induction fuel as [|f IH]; intros steps h xmin xmax s log Hd An Es Hh W E.
  - cbn [shrink_loop] in E. destruct (slt tol (err s) && (steps <? 10)%Z && slt c_1em3 h); [discriminate|].
    injection E as <- <- <- <- <- <-. left; auto 10.
  - cbn [shrink_loop] in E.
    destruct (slt tol (err s) && (steps <? 10)%Z && slt c_1em3 h) eqn:C.
    2:{ injection E as <- <- <- <- <- <-. left; auto 10. }
    right. apply andb_prop in C as [C C3]. apply andb_prop in C as [C1 C2].
    rewrite c1em3 in C3. cbn [slt Scalar_R] in C1, C3. apply Rltb_true in C1, C3.
    set (fac := std_max c_p1 (smul c_p99 (powf tol (err s)))) in *.
    assert (F : 1/10 <= fac /\ fac < 1).
    { unfold fac, std_max. rewrite cp1, cp99. cbn [slt smul Scalar_R]. specialize (pow_shrink (err s) C1). rb; lra. }
    set (h1 := smul h fac) in *. assert (H1 : h / 10 <= h1 /\ h1 < h) by (unfold h1; simpl; split; nra).
    set (xM := match d with Dfwd => sadd xmin h1 | _ => xmax end) in *.
    set (xm := match d with Dfwd => xmin | _ => ssub xmax h1 end) in *.
    assert (Eh : ssub xM xm = h1) by (unfold xM, xm; simpl; destruct d; try lra; congruence).
    rewrite Eh in E.
    assert (W1 : within left right (mk pay xm xM d)).
    { subst s. unfold within in *. simpl in *. unfold xm, xM. simpl. destruct d; try congruence; lra. }
    assert (An1 : anchored d left right (mk pay xm xM d)).
    { subst s. destruct An as [A1 [A2 A3]]. simpl in *. split; [reflexivity|].
      unfold xm, xM; destruct d; split; intros; try discriminate; auto. }
    assert (E1 : h1 = xM - xm) by (simpl in Eh; lra).
    pose proof (IH (steps + 1)%Z h1 xm xM (mk pay xm xM d) (log ++ [mk pay xm xM d]) Hd An1 eq_refl E1 W1 E) as K.
    destruct K as [[K1 [K2 [K3 [K4 [K5 K6]]]]]|[K1 [K2 [K3 [K4 [new [K5 K6]]]]]]].
    + subst. split; [lia|]. split; [lra|]. split; [simpl; auto|]. split; [auto|].
      eexists; split; [reflexivity|]. intros x [<-|[]]; auto.
    + split; [lia|]. split; [auto|]. split; [auto|]. split; [auto|].
      exists (mk pay xm xM d :: new). split; [subst log'; rewrite <- app_assoc; reflexivity|].
      intros x [<-|Hx]; auto.
Qed.

Lemma grow_R fuel d left right steps h xmin xmax e s log h' s' log' :
  d <> Dnone -> left < right -> anchored d left right s -> s = mk pay xmin xmax d -> h = xmax - xmin -> within left right s ->
  grow_loop pay err powf tol fuel d left right steps h xmin xmax e s log = Ret (h', s', log') ->
  h <= h' /\ h' = smax s' - smin s' /\ within left right s' /\
  (smin s = left -> smax s = right -> smin s' = left /\ smax s' = right) /\
   exists new, log' = log ++ new /\ forall x, In x new -> within left right x.
Proof.
  intros Hd Hlr. revert steps h xmin xmax e s log; induction fuel as [|f IH]; intros steps h xmin xmax e s log An Es Hh W E.
  - cbn [grow_loop] in E. destruct (slt e (sdiv tol (sofZ 2)) && (steps <? 10)%Z && negb (seqb h (ssub right left))); [discriminate|].
    injection E as <- <- <-. subst s. simpl. split; [lra|]. split; [auto|]. split; [auto|]. split; [auto|].
    exists []; rewrite app_nil_r; split; auto; intros x [].
  - cbn [grow_loop] in E.
    destruct (slt e (sdiv tol (sofZ 2)) && (steps <? 10)%Z && negb (seqb h (ssub right left))) eqn:C.
    2:{ injection E as <- <- <-. subst s. simpl. split; [lra|]. split; [auto|]. split; [auto|]. split; [auto|].
        exists []; rewrite app_nil_r; split; auto; intros x []. }
    apply andb_prop in C as [C C3]. apply andb_prop in C as [C1 C2].
    simpl in C1. apply Rltb_true in C1.
    match type of E with (let '(_, _) := ?p in _) = _ => destruct p as [a b] eqn:Ep end.
    assert (W0 := W). unfold within in W0. subst s. simpl in W0.
    assert (G : left <= a /\ a < b /\ b <= right /\ h <= b - a /\ (d = Dfwd -> a = left) /\ (d = Dbwd -> b = right)).
    { destruct An as [A1 [A2 A3]]. simpl in A2, A3. simpl in Ep.
      destruct (Rleb e 0) eqn:Le.
      - injection Ep as <- <-. repeat split; auto; lra.
      - apply Rleb_false in Le. specialize (pow_grow e Le C1).
        assert (h <= h * powf tol e) by nra.
        destruct d; try congruence; injection Ep as <- <-.
        + rb; repeat split; auto; try lra; try discriminate.
        + rb; repeat split; auto; try lra; try discriminate. }
    destruct G as [G1 [G2 [G3 [G4 [G5 G6]]]]].
    assert (W1 : within left right (mk pay a b d)) by (repeat split; simpl; auto; lra).
    destruct (slt tol (err (mk pay a b d))).
    + injection E as <- <- <-. simpl. split; [lra|]. split; [auto|]. split; [auto|]. split; [auto|].
      eexists; split; [reflexivity|]. intros x [<-|[]]; auto.
    + assert (An1 : anchored d left right (mk pay a b d)) by (split; [reflexivity|auto]).
      apply IH in E; auto.
      destruct E as [K1 [K2 [K3 [K4 [new [K5 K6]]]]]].
      simpl in K1. split; [lra|]. split; [auto|]. split; [auto|]. split.
      * simpl. intros -> ->. apply K4; simpl; lra.
      * exists (mk pay a b d :: new). split; [subst log'; rewrite <- app_assoc; reflexivity|].
        intros x [<-|Hx]; auto.
Qed.

Lemma next_R h left right d log :
  d <> Dnone -> left < right -> 0 < h ->
  exists s h' new, next_sector pay err powf tol h left right d log = Ret (s, h', log ++ new) /\
    anchored d left right s /\ within left right s /\ h' = smax s - smin s /\
    ((smin s = left /\ smax s = right) \/ h <= h' \/ 1/10000 <= h') /\
    forall x, In x new -> within left right x.
Proof.
  intros Hd Hlr Hh.
  destruct (next_total pay err powf tol h left right d log Hd) as [s [h' [log' [E An]]]].
  rewrite E. unfold next_sector in E.
  match type of E with (let '(_, _) := ?p in _) = _ => destruct p as [a b] eqn:Ep end.
  assert (G : left <= a /\ a < b /\ b <= right /\ (d = Dfwd -> a = left) /\ (d = Dbwd -> b = right) /\
              ((a = left /\ b = right) \/ b - a = h)).
  { simpl in Ep. destruct d; try congruence; injection Ep as <- <-;
      rb; repeat split; auto; try lra; try discriminate; right; lra. }
  destruct G as [G1 [G2 [G3 [G4 [G5 G6]]]]].
  assert (W0 : within left right (mk pay a b d)) by (repeat split; simpl; auto; lra).
  assert (An0 : anchored d left right (mk pay a b d)) by (split; [reflexivity|auto]).
  destruct (shrink_loop pay err powf tol 11 d 0 (ssub b a) a b (mk pay a b d) (log ++ [mk pay a b d]))
    as [[[[[[st h1] a1] b1] s1] l1]| | |] eqn:S; try discriminate.
  cbn [bind] in E.
  apply shrink_R with (left := left) (right := right) in S; auto.
  destruct S as [[-> [-> [-> [-> [-> ->]]]]]|[S1 [S2 [S3 [S4 [new [S5 S6]]]]]]].
  - change (0 =? 0)%Z with true in E. cbv iota in E.
    destruct (grow_loop pay err powf tol 11 d left right 0 (ssub b a) a b (err (mk pay a b d)) (mk pay a b d)
             (log ++ [mk pay a b d])) as [[[h2 s2] l2]| | |] eqn:G; try discriminate.
    cbn [bind] in E. injection E as <- <- <-.
    apply grow_R in G; auto. destruct G as [K1 [K2 [K3 [K4 [new [K5 K6]]]]]].
    exists s2, h2, (mk pay a b d :: new). split; [subst l2; rewrite <- app_assoc; reflexivity|].
    split; [auto|]. split; [auto|]. split; [auto|]. split.
    + simpl in K1, K4. destruct G6 as [[-> ->]|G6]; [left; apply K4; auto|right; left; lra].
    + intros x [<-|Hx]; auto.
  - assert (st =? 0 = false)%Z by (apply Z.eqb_neq; lia). rewrite H in E. injection E as <- <- <-.
    exists s1, h1, (mk pay a b d :: new). split; [subst l1; rewrite <- app_assoc; reflexivity|].
    split; [auto|]. split; [auto|]. split; [auto|]. split; [right; right; auto|].
    intros x [<-|Hx]; auto.
Qed.

(** *** The main loop *)
Variables (lo hi : R) (jumps : list R).
Hypothesis lohi : lo < hi.
Hypothesis jumps_in : forall j, In j jumps -> lo < j < hi.

Definition clean (x : sec) : Prop := within lo hi x /\ forall j, In j jumps -> ~ (smin x < j < smax x).

Record inv (fs bs : list sec) (f0 b0 : sec) (hf hb : R) (fj bj : list R) (log : list sec) : Prop := {
  i_f : lo < smax f0; i_fb : smax f0 <= smin b0; i_b : smin b0 < hi;
  i_hf : 0 < hf; i_hb : 0 < hb;
  i_fs : StronglySorted Rlt fj; i_bs : StronglySorted Rgt bj;
  i_fin : forall j, In j fj -> In j jumps; i_bin : forall j, In j bj -> In j jumps;
  i_fc : forall j, In j jumps -> In j fj \/ j <= smax f0;
  i_bc : forall j, In j jumps -> In j bj \/ smin b0 <= j;
  i_fn : smax f0 <= next_fwd hi fj; i_bn : next_bwd lo bj <= smin b0;
  i_fbd : forall j, In j jumps -> j <= smax f0 -> is_boundary j (f0 :: fs);
  i_bbd : forall j, In j jumps -> smin b0 <= j -> is_boundary j (b0 :: bs);
  i_fw : forall x, In x (f0 :: fs) -> clean x;
  i_bw : forall x, In x (b0 :: bs) -> clean x;
  i_log : forall x, In x log -> clean x
}.

Lemma sorted_head_lt fj j : StronglySorted Rlt fj -> In j fj -> next_fwd hi fj <= j.
Proof.
  intros S I. destruct fj as [|x r]; [destruct I|]. simpl. destruct I as [->|I]; [lra|].
  inversion S; subst. rewrite Forall_forall in H2. specialize (H2 _ I). lra.
Qed.
Lemma sorted_head_gt bj j : StronglySorted Rgt bj -> In j bj -> j <= next_bwd lo bj.
Proof.
  intros S I. destruct bj as [|x r]; [destruct I|]. simpl. destruct I as [->|I]; [lra|].
  inversion S; subst. rewrite Forall_forall in H2. specialize (H2 _ I). lra.
Qed.

(** after the conditional pop the next jump is strictly ahead *)
Lemma pop_fwd fs bs f0 b0 hf hb fj bj log :
  inv fs bs f0 b0 hf hb fj bj log -> smax f0 < smin b0 ->
  exists fj', (if seqb (smax f0) (next_fwd hi fj) then pop fj else Ret fj) = Ret fj' /\
    inv fs bs f0 b0 hf hb fj' bj log /\ smax f0 < next_fwd hi fj'.
Proof.
  intros I Hlt. simpl. destruct (Reqb (smax f0) (next_fwd hi fj)) eqn:Q.
  - apply Reqb_true in Q. destruct fj as [|j r]; simpl in *.
    + pose proof (i_b _ _ _ _ _ _ _ _ _ I). lra.
    + exists r. split; auto. pose proof (i_fs _ _ _ _ _ _ _ _ _ I) as S. inversion S; subst.
      assert (N : smax f0 < next_fwd hi r).
      { destruct r as [|j2 r]; simpl.
        - try rewrite Q. apply jumps_in. apply (i_fin _ _ _ _ _ _ _ _ _ I). simpl; auto.
        - inversion H2; subst. lra. }
      split; auto. destruct I; constructor; simpl; auto.
      * intros j0 Hj0. apply i_fin0. simpl; auto.
      * intros j0 Hj0. destruct (i_fc0 j0 Hj0) as [[<-|K]|K]; auto; right; lra.
      * lra.
  - apply Reqb_false in Q. exists fj. split; auto. split; auto. pose proof (i_fn _ _ _ _ _ _ _ _ _ I). lra.
Qed.

Lemma pop_bwd fs bs f0 b0 hf hb fj bj log :
  inv fs bs f0 b0 hf hb fj bj log -> smax f0 < smin b0 ->
  exists bj', (if seqb (smin b0) (next_bwd lo bj) then pop bj else Ret bj) = Ret bj' /\
    inv fs bs f0 b0 hf hb fj bj' log /\ next_bwd lo bj' < smin b0.
Proof.
  intros I Hlt. simpl. destruct (Reqb (smin b0) (next_bwd lo bj)) eqn:Q.
  - apply Reqb_true in Q. destruct bj as [|j r]; simpl in *.
    + pose proof (i_f _ _ _ _ _ _ _ _ _ I). lra.
    + exists r. split; auto. pose proof (i_bs _ _ _ _ _ _ _ _ _ I) as S. inversion S; subst.
      assert (N : next_bwd lo r < smin b0).
      { destruct r as [|j2 r]; simpl.
        - try rewrite Q. apply jumps_in. apply (i_bin _ _ _ _ _ _ _ _ _ I). simpl; auto.
        - inversion H2; subst. lra. }
      split; auto. destruct I; constructor; simpl; auto.
      * intros j0 Hj0. apply i_bin0. simpl; auto.
      * intros j0 Hj0. destruct (i_bc0 j0 Hj0) as [[<-|K]|K]; auto; right; lra.
      * lra.
  - apply Reqb_false in Q. exists bj. split; auto. split; auto. pose proof (i_bn _ _ _ _ _ _ _ _ _ I). lra.
Qed.

Lemma std_min_R (a b : R) : std_min a b <= a /\ std_min a b <= b /\ (std_min a b = a \/ std_min a b = b).
Proof. unfold std_min. simpl. rb; lra. Qed.
Lemma std_max_R (a b : R) : a <= std_max a b /\ b <= std_max a b /\ (std_max a b = a \/ std_max a b = b).
Proof. unfold std_max. simpl. rb; lra. Qed.

Lemma boundary_cons j (x : sec) l : is_boundary j l -> is_boundary j (x :: l).
Proof. intros [s [A B]]. exists s; simpl; auto. Qed.

Lemma step_fwd fs bs f0 b0 hf hb fj bj log s h' new :
  inv fs bs f0 b0 hf hb fj bj log -> smax f0 < smin b0 -> smax f0 < next_fwd hi fj ->
  anchored Dfwd (smax f0) (std_min (smin b0) (next_fwd hi fj)) s ->
  within (smax f0) (std_min (smin b0) (next_fwd hi fj)) s -> h' = smax s - smin s ->
  (forall x, In x new -> within (smax f0) (std_min (smin b0) (next_fwd hi fj)) x) ->
  inv (f0 :: fs) bs s b0 h' hb fj bj (log ++ new).
Proof.
  intros I Hlt Hn [A1 [A2 _]] [W1 [W2 W3]] Hh Hnew.
  destruct (std_min_R (smin b0) (next_fwd hi fj)) as [M1 [M2 M3]].
  set (right := std_min (smin b0) (next_fwd hi fj)) in *.
  assert (Cl : forall x, within (smax f0) right x -> clean x).
  { intros x [X1 [X2 X3]]. pose proof (i_f _ _ _ _ _ _ _ _ _ I). pose proof (i_b _ _ _ _ _ _ _ _ _ I).
    split; [repeat split; lra|]. intros j Hj [J1 J2].
    destruct (i_fc _ _ _ _ _ _ _ _ _ I j Hj) as [K|K]; [|lra].
    pose proof (sorted_head_lt fj j (i_fs _ _ _ _ _ _ _ _ _ I) K). lra. }
  destruct I; constructor; auto; try lra.
  - intros j Hj. destruct (i_fc0 j Hj); auto. right; lra.
  - intros j Hj Hle. destruct (Rle_dec j (smax f0)) as [L|L]; [apply boundary_cons; auto|].
    destruct (i_fc0 j Hj) as [K|K]; [|lra].
    pose proof (sorted_head_lt fj j i_fs0 K). exists s; split; [simpl; auto|right; lra].
  - intros x [<-|Hx]; auto. apply Cl. repeat split; lra.
  - intros x Hx. apply in_app_or in Hx as [Hx|Hx]; auto.
Qed.

Lemma step_bwd fs bs f0 b0 hf hb fj bj log s h' new :
  inv fs bs f0 b0 hf hb fj bj log -> smax f0 < smin b0 -> next_bwd lo bj < smin b0 ->
  anchored Dbwd (std_max (smax f0) (next_bwd lo bj)) (smin b0) s ->
  within (std_max (smax f0) (next_bwd lo bj)) (smin b0) s -> h' = smax s - smin s ->
  (forall x, In x new -> within (std_max (smax f0) (next_bwd lo bj)) (smin b0) x) ->
  inv fs (b0 :: bs) f0 s hf h' fj bj (log ++ new).
Proof.
  intros I Hlt Hn [A1 [_ A2]] [W1 [W2 W3]] Hh Hnew.
  destruct (std_max_R (smax f0) (next_bwd lo bj)) as [M1 [M2 M3]].
  set (left := std_max (smax f0) (next_bwd lo bj)) in *.
  assert (Cl : forall x, within left (smin b0) x -> clean x).
  { intros x [X1 [X2 X3]]. pose proof (i_f _ _ _ _ _ _ _ _ _ I). pose proof (i_b _ _ _ _ _ _ _ _ _ I).
    split; [repeat split; lra|]. intros j Hj [J1 J2].
    destruct (i_bc _ _ _ _ _ _ _ _ _ I j Hj) as [K|K]; [|lra].
    pose proof (sorted_head_gt bj j (i_bs _ _ _ _ _ _ _ _ _ I) K). lra. }
  destruct I; constructor; auto; try lra.
  - intros j Hj. destruct (i_bc0 j Hj); auto. right; lra.
  - intros j Hj Hle. destruct (Rle_dec (smin b0) j) as [L|L]; [apply boundary_cons; auto|].
    destruct (i_bc0 j Hj) as [K|K]; [|lra].
    pose proof (sorted_head_gt bj j i_bs0 K). exists s; split; [simpl; auto|left; lra].
  - intros x [<-|Hx]; auto. apply Cl. repeat split; lra.
  - intros x Hx. apply in_app_or in Hx as [Hx|Hx]; auto.
Qed.

(** jumps strictly inside the gap *)
Definition ingap (a b j : R) : bool := Rltb a j && Rltb j b.
Definition gapcount (a b : R) : nat := length (filter (ingap a b) jumps).
Lemma filter_le {A} (p q : A -> bool) l : (forall x, In x l -> q x = true -> p x = true) ->
  (length (filter q l) <= length (filter p l))%nat.
Proof.
  induction l as [|x l IH]; simpl; intros Hpq; auto.
  assert (length (filter q l) <= length (filter p l))%nat by (apply IH; auto).
  destruct (q x) eqn:Q; destruct (p x) eqn:P1; simpl; try lia.
  rewrite Hpq in P1; auto; discriminate.
Qed.
Lemma filter_lt {A} (p q : A -> bool) l x0 : (forall x, In x l -> q x = true -> p x = true) ->
  In x0 l -> p x0 = true -> q x0 = false -> (length (filter q l) < length (filter p l))%nat.
Proof.
  induction l as [|x l IH]; simpl; intros Hpq I0 P0 Q0; [tauto|].
  assert (length (filter q l) <= length (filter p l))%nat by (apply filter_le; auto).
  destruct I0 as [->|I0].
  - rewrite P0, Q0. simpl. lia.
  - assert (length (filter q l) < length (filter p l))%nat by (apply IH; auto).
    destruct (q x) eqn:Q; destruct (p x) eqn:P1; simpl; try lia.
    rewrite Hpq in P1; auto; discriminate.
Qed.
Lemma ingap_true a b j : ingap a b j = true <-> a < j < b.
Proof. unfold ingap. rewrite andb_true_iff, !Rltb_true. tauto. Qed.
Lemma gap_le a b a' b' : a <= a' -> b' <= b -> (gapcount a' b' <= gapcount a b)%nat.
Proof. intros. apply filter_le. intros x _. rewrite !ingap_true. lra. Qed.
Lemma gap_lt a b a' b' j : a <= a' -> b' <= b -> In j jumps -> a < j < b -> ~ (a' < j < b') -> (gapcount a' b' < gapcount a b)%nat.
Proof.
  intros. apply filter_lt with (x0 := j); auto.
  - intros x _. rewrite !ingap_true. lra.
  - apply ingap_true; auto.
  - destruct (ingap a' b' j) eqn:E; auto. apply ingap_true in E. tauto.
Qed.

Lemma loop_R : forall c N fs bs f0 b0 hf hb fj bj log delta,
  inv fs bs f0 b0 hf hb fj bj log -> (gapcount (smax f0) (smin b0) <= c)%nat ->
  0 < delta -> delta <= 1/10000 -> delta <= hf -> delta <= hb -> smin b0 - smax f0 <= INR N * delta ->
  exists F fs' bs' log', (forall fuel, (F <= fuel)%nat ->
     auto_loop pay err cmp powf tol fuel lo hi fs bs f0 b0 hf hb fj bj log = Ret (fs', bs', log'))
   /\ (forall x, In x (fs' ++ bs') -> clean x) /\ (forall x, In x log' -> clean x)
   /\ (forall j, In j jumps -> is_boundary j (rev fs' ++ bs')).
Proof.
  induction c as [c IHc] using lt_wf_ind.
  induction N as [N IHN] using lt_wf_ind.
  intros fs bs f0 b0 hf hb fj bj log delta I Hc Hd0 Hd1 Hdf Hdb Hg.
  destruct (Req_EM_T (smax f0) (smin b0)) as [Eq|Ne].
  { exists 0%nat, (f0 :: fs), (b0 :: bs), log. split; [|split; [|split]].
    - intros fuel _. destruct fuel; cbn [auto_loop]; simpl; (destruct (Reqb (smax f0) (smin b0)) eqn:Q; [auto|apply Reqb_false in Q; congruence]).
    - intros x Hx. destruct I. apply in_app_or in Hx as [Hx|Hx]; auto.
    - apply (i_log _ _ _ _ _ _ _ _ _ I).
    - intros j Hj. destruct I. destruct (Rle_dec j (smax f0)) as [L|L].
      + destruct (i_fbd0 j Hj L) as [s [S1 S2]]. exists s; split; auto. apply in_or_app; left. apply -> in_rev. auto.
      + destruct (i_bbd0 j Hj) as [s [S1 S2]]; [lra|]. exists s; split; auto. apply in_or_app; right; auto. }
  assert (Hlt : smax f0 < smin b0) by (pose proof (i_fb _ _ _ _ _ _ _ _ _ I); lra).
  destruct (cmp b0 f0) eqn:Cmp.
  - destruct (pop_fwd _ _ _ _ _ _ _ _ _ I Hlt) as [fj' [Pf [I' Hn]]].
    destruct (std_min_R (smin b0) (next_fwd hi fj')) as [M1 [M2 M3]].
    assert (Hlr : smax f0 < std_min (smin b0) (next_fwd hi fj')) by (destruct M3 as [-> | ->]; auto).
    destruct (next_R hf (smax f0) (std_min (smin b0) (next_fwd hi fj')) Dfwd log) as [s [h' [new [N1 [N2 [N3 [N4 [N5 N6]]]]]]]];
      [discriminate|auto|apply (i_hf _ _ _ _ _ _ _ _ _ I)|].
    pose proof (step_fwd _ _ _ _ _ _ _ _ _ s h' new I' Hlt Hn N2 N3 N4 N6) as I2.
    assert (Step : forall F fs' bs' log', (forall fuel, (F <= fuel)%nat -> auto_loop pay err cmp powf tol fuel lo hi (f0 :: fs) bs s b0 h' hb fj' bj (log ++ new) = Ret (fs', bs', log')) ->
      forall fuel, (S F <= fuel)%nat -> auto_loop pay err cmp powf tol fuel lo hi fs bs f0 b0 hf hb fj bj log = Ret (fs', bs', log')).
    { intros F fs' bs' log' K fuel Hf. destruct fuel as [|fuel]; [lia|]. cbn [auto_loop].
      destruct (seqb (smax f0) (smin b0)) eqn:Q; [apply Reqb_true in Q; congruence|].
      rewrite Cmp, Pf. cbn [bind]. rewrite N1. cbn [bind]. apply K. lia. }
    destruct N3 as [W1 [W2 W3]].
    destruct N5 as [[N5 N5']|N5].
    + (* reached the limit *)
      destruct (Req_EM_T (smax s) (smin b0)) as [Eq|Ne2].
      * (* front reached *)
        destruct (IHN 0%nat) with (fs := f0 :: fs) (bs := bs) (f0 := s) (b0 := b0) (hf := h') (hb := hb) (fj := fj') (bj := bj) (log := log ++ new) (delta := Rmin delta h')
          as [F [fs' [bs' [log' [K1 [K2 K3]]]]]]; auto.
        { destruct N; [simpl in Hg; exfalso; nra|lia]. }
        { pose proof (gap_le (smax f0) (smin b0) (smax s) (smin b0)). lra || (assert (gapcount (smax s) (smin b0) <= gapcount (smax f0) (smin b0))%nat by (apply H; lra); lia). }
        { apply Rmin_glb_lt; lra. } { pose proof (Rmin_l delta h'); lra. } { apply Rmin_r. } { pose proof (Rmin_l delta h'); lra. }
        { simpl. lra. }
        exists (S F), fs', bs', log'. split; auto.
        apply Step; auto.
      * assert (J : In (smax s) jumps).
        { destruct M3 as [M3|M3]; [congruence|]. destruct fj' as [|j r].
          - cbn [next_fwd] in *. pose proof (i_b _ _ _ _ _ _ _ _ _ I). lra.
          - cbn [next_fwd] in *. rewrite N5', M3. apply (i_fin _ _ _ _ _ _ _ _ _ I'). simpl; auto. }
        assert (GL : (gapcount (smax s) (smin b0) < gapcount (smax f0) (smin b0))%nat).
        { apply gap_lt with (j := smax s); auto; lra. }
        destruct (INR_unbounded ((smin b0 - smax s) / Rmin delta h')) as [N' HN'].
        assert (0 < Rmin delta h') by (apply Rmin_glb_lt; lra).
        destruct (IHc (gapcount (smax s) (smin b0)) ltac:(lia) N') with (fs := f0 :: fs) (bs := bs) (f0 := s) (b0 := b0) (hf := h') (hb := hb) (fj := fj') (bj := bj) (log := log ++ new) (delta := Rmin delta h')
          as [F [fs' [bs' [log' [K1 [K2 K3]]]]]]; auto.
        { pose proof (Rmin_l delta h'); lra. } { apply Rmin_r. } { pose proof (Rmin_l delta h'); lra. }
        { apply Rlt_le. apply Rmult_lt_compat_r with (r := Rmin delta h') in HN'; auto.
          unfold Rdiv in HN'. rewrite Rmult_assoc, Rinv_l, Rmult_1_r in HN' by lra. auto. }
        exists (S F), fs', bs', log'. split; auto.
        apply Step; auto.
    + assert (Hh' : delta <= h') by lra.
      destruct (IHN (Nat.pred N)) with (fs := f0 :: fs) (bs := bs) (f0 := s) (b0 := b0) (hf := h') (hb := hb) (fj := fj') (bj := bj) (log := log ++ new) (delta := delta)
          as [F [fs' [bs' [log' [K1 [K2 K3]]]]]]; auto.
      { destruct N; [simpl in Hg; exfalso; nra|lia]. }
      { assert (gapcount (smax s) (smin b0) <= gapcount (smax f0) (smin b0))%nat by (apply gap_le; lra). lia. }
      { destruct N; [simpl in Hg; exfalso; nra|]. rewrite S_INR in Hg. simpl Nat.pred.
        destruct N2 as [_ [N2 _]]. specialize (N2 eq_refl). rewrite N2 in N4. lra. }
      exists (S F), fs', bs', log'. split; auto.
      apply Step; auto.
  - destruct (pop_bwd _ _ _ _ _ _ _ _ _ I Hlt) as [bj' [Pf [I' Hn]]].
    destruct (std_max_R (smax f0) (next_bwd lo bj')) as [M1 [M2 M3]].
    assert (Hlr : std_max (smax f0) (next_bwd lo bj') < smin b0) by (destruct M3 as [-> | ->]; auto).
    destruct (next_R hb (std_max (smax f0) (next_bwd lo bj')) (smin b0) Dbwd log) as [s [h' [new [N1 [N2 [N3 [N4 [N5 N6]]]]]]]];
      [discriminate|auto|apply (i_hb _ _ _ _ _ _ _ _ _ I)|].
    pose proof (step_bwd _ _ _ _ _ _ _ _ _ s h' new I' Hlt Hn N2 N3 N4 N6) as I2.
    assert (Step : forall F fs' bs' log', (forall fuel, (F <= fuel)%nat -> auto_loop pay err cmp powf tol fuel lo hi fs (b0 :: bs) f0 s hf h' fj bj' (log ++ new) = Ret (fs', bs', log')) ->
      forall fuel, (S F <= fuel)%nat -> auto_loop pay err cmp powf tol fuel lo hi fs bs f0 b0 hf hb fj bj log = Ret (fs', bs', log')).
    { intros F fs' bs' log' K fuel Hf. destruct fuel as [|fuel]; [lia|]. cbn [auto_loop].
      destruct (seqb (smax f0) (smin b0)) eqn:Q; [apply Reqb_true in Q; congruence|].
      rewrite Cmp, Pf. cbn [bind]. rewrite N1. cbn [bind]. apply K. lia. }
    destruct N3 as [W1 [W2 W3]].
    destruct N5 as [[N5 N5']|N5].
    + destruct (Req_EM_T (smin s) (smax f0)) as [Eq|Ne2].
      * destruct (IHN 0%nat) with (fs := fs) (bs := b0 :: bs) (f0 := f0) (b0 := s) (hf := hf) (hb := h') (fj := fj) (bj := bj') (log := log ++ new) (delta := Rmin delta h')
          as [F [fs' [bs' [log' [K1 [K2 K3]]]]]]; auto.
        { destruct N; [simpl in Hg; exfalso; nra|lia]. }
        { assert (gapcount (smax f0) (smin s) <= gapcount (smax f0) (smin b0))%nat by (apply gap_le; lra). lia. }
        { apply Rmin_glb_lt; lra. } { pose proof (Rmin_l delta h'); lra. } { pose proof (Rmin_l delta h'); lra. } { apply Rmin_r. }
        { simpl. lra. }
        exists (S F), fs', bs', log'. split; auto.
        apply Step; auto.
      * assert (J : In (smin s) jumps).
        { destruct M3 as [M3|M3]; [congruence|]. destruct bj' as [|j r].
          - cbn [next_bwd] in *. pose proof (i_f _ _ _ _ _ _ _ _ _ I). lra.
          - cbn [next_bwd] in *. rewrite N5, M3. apply (i_bin _ _ _ _ _ _ _ _ _ I'). simpl; auto. }
        assert (GL : (gapcount (smax f0) (smin s) < gapcount (smax f0) (smin b0))%nat).
        { apply gap_lt with (j := smin s); auto; lra. }
        destruct (INR_unbounded ((smin s - smax f0) / Rmin delta h')) as [N' HN'].
        assert (0 < Rmin delta h') by (apply Rmin_glb_lt; lra).
        destruct (IHc (gapcount (smax f0) (smin s)) ltac:(lia) N') with (fs := fs) (bs := b0 :: bs) (f0 := f0) (b0 := s) (hf := hf) (hb := h') (fj := fj) (bj := bj') (log := log ++ new) (delta := Rmin delta h')
          as [F [fs' [bs' [log' [K1 [K2 K3]]]]]]; auto.
        { pose proof (Rmin_l delta h'); lra. } { pose proof (Rmin_l delta h'); lra. } { apply Rmin_r. }
        { apply Rlt_le. apply Rmult_lt_compat_r with (r := Rmin delta h') in HN'; auto.
          unfold Rdiv in HN'. rewrite Rmult_assoc, Rinv_l, Rmult_1_r in HN' by lra. auto. }
        exists (S F), fs', bs', log'. split; auto.
        apply Step; auto.
    + assert (Hh' : delta <= h') by lra.
      destruct (IHN (Nat.pred N)) with (fs := fs) (bs := b0 :: bs) (f0 := f0) (b0 := s) (hf := hf) (hb := h') (fj := fj) (bj := bj') (log := log ++ new) (delta := delta)
          as [F [fs' [bs' [log' [K1 [K2 K3]]]]]]; auto.
      { destruct N; [simpl in Hg; exfalso; nra|lia]. }
      { assert (gapcount (smax f0) (smin s) <= gapcount (smax f0) (smin b0))%nat by (apply gap_le; lra). lia. }
      { destruct N; [simpl in Hg; exfalso; nra|]. rewrite S_INR in Hg. simpl Nat.pred.
        destruct N2 as [_ [_ N2]]. specialize (N2 eq_refl). rewrite N2 in N4. lra. }
      exists (S F), fs', bs', log'. split; auto.
      apply Step; auto.
Qed.

Hypothesis jumps_sorted : StronglySorted Rlt jumps.

Lemma rev_sorted l : StronglySorted Rlt l -> StronglySorted Rgt (rev l).
Proof.
  induction 1 as [|a l S IH F]; simpl; [constructor|].
  assert (G : forall l1 : list R, StronglySorted Rgt l1 -> Forall (fun x => a < x) l1 -> StronglySorted Rgt (l1 ++ [a])).
  { clear. induction l1 as [|x r IH]; simpl; intros S F.
    - repeat constructor.
    - inversion S; subst. inversion F; subst. constructor; [auto|]. apply Forall_app; split; auto. }
  apply G; auto. rewrite Forall_forall in *. intros x Hx. apply F. apply in_rev; auto.
Qed.

Theorem auto_build_R :
  exists F l m log, (forall fuel, (F <= fuel)%nat -> auto_build pay err cmp powf tol fuel jumps lo hi = Ret (l, m, log))
    /\ (forall x, In x l -> clean x) /\ (forall x, In x log -> clean x) /\ (forall j, In j jumps -> is_boundary j l).
Proof.
  unfold auto_build. set (mid := sadd (smul c_midmax hi) (smul c_midmin lo)).
  assert (Hmid : lo < mid < hi).
  { unfold mid, c_midmax, c_midmin. simpl. lra. }
  set (h := smul c_p33 (ssub hi lo)). assert (Hh : 0 < h) by (unfold h, c_p33; simpl; nra).
  assert (Fn : forall x, lo < x -> x <= next_fwd hi jumps -> forall j, In j jumps -> x <= j).
  { intros x _ Hx j Hj. pose proof (sorted_head_lt jumps j jumps_sorted Hj). lra. }
  assert (Bn : forall x, next_bwd lo (rev jumps) <= x -> forall j, In j jumps -> j <= x).
  { intros x Hx j Hj. pose proof (sorted_head_gt (rev jumps) j (rev_sorted _ jumps_sorted)). rewrite <- in_rev in H. specialize (H Hj). lra. }
  assert (Fl : lo < next_fwd hi jumps).
  { destruct jumps as [|j r] eqn:E; simpl; auto. apply jumps_in. rewrite ?E; simpl; auto. }
  assert (Bl : next_bwd lo (rev jumps) < hi).
  { destruct (rev jumps) as [|j r] eqn:E; simpl; auto. apply jumps_in. apply in_rev. rewrite E. simpl; auto. }
  destruct (std_min_R mid (next_fwd hi jumps)) as [M1 [M2 M3]].
  destruct (std_max_R mid (next_bwd lo (rev jumps))) as [N1 [N2 N3]].
  destruct (next_R h lo (std_min mid (next_fwd hi jumps)) Dfwd []) as [f0 [hf [new1 [A1 [A2 [A3 [A4 [A5 A6]]]]]]]];
    [discriminate|destruct M3 as [-> | ->]; lra|auto|].
  rewrite A1. cbn [bind].
  destruct (next_R h (std_max mid (next_bwd lo (rev jumps))) hi Dbwd ([] ++ new1)) as [b0 [hb [new2 [B1 [B2 [B3 [B4 [B5 B6]]]]]]]];
    [discriminate|destruct N3 as [-> | ->]; lra|auto|].
  rewrite B1. cbn [bind].
  assert (CF : forall x, within lo (std_min mid (next_fwd hi jumps)) x -> clean x).
  { intros x [X1 [X2 X3]]. split; [repeat split; lra|]. intros j Hj [J1 J2].
    specialize (Fn (smax x) ltac:(lra) ltac:(lra) j Hj). lra. }
  assert (CB : forall x, within (std_max mid (next_bwd lo (rev jumps))) hi x -> clean x).
  { intros x [X1 [X2 X3]]. split; [repeat split; lra|]. intros j Hj [J1 J2].
    specialize (Bn (smin x) ltac:(lra) j Hj). lra. }
  assert (I : inv [] [] f0 b0 hf hb jumps (rev jumps) (([] ++ new1) ++ new2)).
  { pose proof A3 as [W1 [W2 W3]]. pose proof B3 as [V1 [V2 V3]].
    constructor; auto; try lra.
    - apply rev_sorted; auto.
    - intros j. rewrite <- in_rev. auto.
    - intros j Hj. left. apply -> in_rev. auto.
    - intros j Hj Hle. specialize (Fn (smax f0) ltac:(lra) ltac:(lra) j Hj). exists f0; split; [simpl; auto|right; lra].
    - intros j Hj Hle. specialize (Bn (smin b0) ltac:(lra) j Hj). exists b0; split; [simpl; auto|left; lra].
    - intros x [<-|[]]; auto.
    - intros x [<-|[]]; auto.
    - intros x Hx. apply in_app_or in Hx as [Hx|Hx]; auto. }
  set (delta := Rmin (Rmin hf hb) (1/10000)).
  pose proof (i_hf _ _ _ _ _ _ _ _ _ I). pose proof (i_hb _ _ _ _ _ _ _ _ _ I).
  assert (D1 : delta <= 1/10000) by apply Rmin_r.
  assert (D2 : delta <= hf) by (eapply Rle_trans; [apply Rmin_l|apply Rmin_l]).
  assert (D3 : delta <= hb) by (eapply Rle_trans; [apply Rmin_l|apply Rmin_r]).
  assert (D0 : 0 < delta) by (unfold delta; repeat apply Rmin_glb_lt; lra).
  destruct (INR_unbounded ((smin b0 - smax f0) / delta)) as [N' HN'].
  destruct (loop_R (gapcount (smax f0) (smin b0)) N' [] [] f0 b0 hf hb jumps (rev jumps) _ delta I) as [F [fs' [bs' [log' [K1 [K2 [K3 K4]]]]]]]; auto.
  { apply Rlt_le. apply Rmult_lt_compat_r with (r := delta) in HN'; auto.
    unfold Rdiv in HN'. rewrite Rmult_assoc, Rinv_l, Rmult_1_r in HN' by lra. auto. }
  exists F, (rev fs' ++ bs'), (Z.of_nat (length fs') - 1)%Z, log'.
  split; [|split; [|split]]; auto.
  - intros fuel Hf. rewrite K1 by auto. reflexivity.
  - intros x Hx. apply K2. apply in_app_or in Hx as [Hx|Hx]; apply in_or_app; auto. left. apply in_rev; auto.
Qed.
End RealBuilder.

(** More fuel never changes a result. *)
Section Mono.
Context {T : Type} `{Scalar T} {P : Type}.
Lemma auto_loop_mono (pay : T -> T -> dir -> P) err cmp powf tol fuel fuel' lo hi fs bs f0 b0 hf hb fj bj log r :
  auto_loop pay err cmp powf tol fuel lo hi fs bs f0 b0 hf hb fj bj log = Ret r -> (fuel <= fuel')%nat ->
  auto_loop pay err cmp powf tol fuel' lo hi fs bs f0 b0 hf hb fj bj log = Ret r.
Proof.
  revert fuel' fs bs f0 b0 hf hb fj bj log; induction fuel as [|f IH]; intros fuel' fs bs f0 b0 hf hb fj bj log E Hle.
  - cbn [auto_loop] in E. destruct fuel'; cbn [auto_loop]; destruct (seqb (smax f0) (smin b0)); auto; discriminate.
  - destruct fuel' as [|fuel']; [lia|]. cbn [auto_loop] in *. destruct (seqb (smax f0) (smin b0)); auto.
    destruct (cmp b0 f0).
    + destruct (if seqb (smax f0) (next_fwd hi fj) then pop fj else Ret fj); try discriminate. cbn [bind] in *.
      destruct (next_sector pay err powf tol hf (smax f0) (std_min (smin b0) (next_fwd hi a)) Dfwd log) as [[[s h'] l']| | |]; try discriminate.
      cbn [bind] in *. apply IH; auto; lia.
    + destruct (if seqb (smin b0) (next_bwd lo bj) then pop bj else Ret bj); try discriminate. cbn [bind] in *.
      destruct (next_sector pay err powf tol hb (std_max (smax f0) (next_bwd lo a)) (smin b0) Dbwd log) as [[[s h'] l']| | |]; try discriminate.
      cbn [bind] in *. apply IH; auto; lia.
Qed.
Lemma auto_build_mono (pay : T -> T -> dir -> P) err cmp powf tol fuel fuel' jumps lo hi r :
  auto_build pay err cmp powf tol fuel jumps lo hi = Ret r -> (fuel <= fuel')%nat ->
  auto_build pay err cmp powf tol fuel' jumps lo hi = Ret r.
Proof.
  unfold auto_build. intros E Hle.
  match type of E with bind ?x _ = _ => destruct x as [[[f0 hf] l1]| | |]; try discriminate end. cbn [bind] in *.
  match type of E with bind ?x _ = _ => destruct x as [[[b0 hb] l2]| | |]; try discriminate end. cbn [bind] in *.
  match type of E with bind ?x _ = _ => destruct x as [[[fs bs] l3]| | |] eqn:L; try discriminate end. cbn [bind] in *.
  rewrite (auto_loop_mono _ _ _ _ _ _ _ _ _ _ _ _ _ _ _ _ _ _ _ L Hle). cbn [bind]. auto.
Qed.
End Mono.

(** The step factor of the code, pow(tol/err, 1/(order-1)) with order = 16 (Matslise) or 9
    (Matscs), meets the two hypotheses made about [powf]. *)
Lemma Rpower_shrink k tol e : 0 < k -> 0 < tol -> tol < e -> Rpower (tol / e) k <= 1.
Proof.
  intros Hk Ht He. unfold Rpower. rewrite <- exp_0. 
  assert (L : ln (tol / e) <= 0).
  { rewrite <- ln_1. apply Rlt_le. apply ln_increasing; [apply Rdiv_lt_0_compat; lra|].
    apply Rmult_lt_reg_r with e; [lra|]. unfold Rdiv. rewrite Rmult_assoc, Rinv_l by lra. lra. }
  destruct (Rle_lt_or_eq_dec _ _ L) as [L'|L'].
  - apply Rlt_le, exp_increasing. nra.
  - rewrite L', Rmult_0_r. lra.
Qed.
Lemma Rpower_grow k tol e : 0 < k -> 0 < e -> e < tol / 2 -> 1 <= Rpower (tol / e) k.
Proof.
  intros Hk He Ht. unfold Rpower. rewrite <- exp_0.
  assert (L : 0 < ln (tol / e)).
  { rewrite <- ln_1. apply ln_increasing; [lra|].
    apply Rmult_lt_reg_r with e; [lra|]. unfold Rdiv. rewrite Rmult_assoc, Rinv_l by lra. lra. }
  apply Rlt_le, exp_increasing. nra.
Qed.
