(** Coupled problems: the phase and, without coupling, the angle along a whole propagation. *)
From mathcomp Require Import ssralg seq fintype matrix.
From Coq Require Import String Reals ZArith Lra Lia Bool.
From Coquelicot Require Import Complex.
From Coq Require Import ssrbool List.
From Verif Require Import Base M_Sectors S_Sectors P_Lookup M_Core S_Core M_Matscs P_Matscs RCField M_Angle S_Zeros S_Channel P_Arg S_Angle P_Angle P_Angle2 P_Angle3.
Import ListNotations.
Delimit Scope R_scope with Re.
Open Scope R_scope.

Section Noop.
Context {n : nat} {P : Type}.
Variable calcT : sector R P -> R -> R -> bool -> @CT R_fieldType n.
Variable ad : sector R P -> R -> R -> @CY R_fieldType n n -> @CY R_fieldType n n -> R.
Definition stepA (E : R) (u : bool) (a b : R) (s : sector R P) (st : @CY R_fieldType n n * R) := let q := cspropA calcT ad s E u a b (fst st) in (fst q, snd st + snd q).
Lemma stepA_noop : forall E u a b s st, smax s <= a /\ smax s <= b \/ a <= smin s /\ b <= smin s -> stepA E u a b s st = st.
Proof.
  intros E u a b s [y t] H. unfold stepA, cspropA. cbn [fst snd].
  assert ((Rleb (smax s) a && Rleb (smax s) b) || (Rleb a (smin s) && Rleb b (smin s)) = true) as ->.
  { apply orb_true_iff. rewrite !andb_true_iff, !Rleb_true. exact H. }
  cbn [negb fst snd]. f_equal. ring.
Qed.
Variables (l : list (sector R P)) (lo hi : R).
Hypothesis PT : partition lo hi l.
Hypothesis OR : forall s, In s l -> smin s <= smax s.
Lemma mpropagate_fold : forall E y a b u, lo <= a <= hi -> lo <= b <= hi ->
  mpropagate calcT ad l lo hi E y a b u = Ret (fold_left (fun st s => stepA E u a b s st) (if Rleb a b then l else rev l) (y, 0)).
Proof using PT OR.
  intros E y a b u Ha Hb. unfold mpropagate, mcontains.
  rewrite (proj2 (Rleb_true a hi)), (proj2 (Rleb_true lo a)), (proj2 (Rleb_true b hi)), (proj2 (Rleb_true lo b)) by lra. cbn [negb orb andb].
  apply (loop_full (fun s st => stepA E u a b s st) a b) with (lo := lo) (hi := hi); auto.
  intros; now apply stepA_noop.
Qed.
End Noop.

Section Phase.
Context {n : nat} {P : Type}.
Notation CYn := (@CY R_fieldType n n).
Variable eigs : 'M[C]_n -> list C.
Hypothesis EO : eigenvalues_ok eigs.
Variable ev : sector R P -> 'I_n -> R.
Variable calcT : sector R P -> R -> R -> bool -> @CT R_fieldType n.
Notation ad := (argdet eta2 eigs ev).

Lemma stepA_phase : forall E u a b s (y0 : CYn) st, (forall d, symplectic (calcT s E d u)) ->
  conjoined (fst st) -> Cmult (cis (snd st)) (phase y0) = phase (fst st) ->
  let st' := stepA calcT ad E u a b s st in conjoined (fst st') /\ Cmult (cis (snd st')) (phase y0) = phase (fst st').
Proof using EO.
  intros E u a b s y0 st Sy Cj Ph. cbv zeta. unfold stepA, cspropA. set (T0 := snd st) in *.
  assert (forall (c : bool) delta (q : CYn * R), conjoined (fst q) -> Cmult (cis (T0 + snd q)) (phase y0) = phase (fst q) ->
    let q' := if c then let q2 := cpropDeltaA calcT ad s E u delta (fst q) in (fst q2, snd q + snd q2) else q in
    conjoined (fst q') /\ Cmult (cis (T0 + snd q')) (phase y0) = phase (fst q')) as K.
  { intros c delta q C1 P1. destruct c; [|split; assumption]. cbn [fst snd cpropDeltaA].
    pose proof (conj_step calcT s E u delta (fst q) Sy C1) as C2. split; [exact C2|].
    rewrite <- Rplus_assoc, <- cis_plus, <- (argdet_phase eigs EO ev s E delta (fst q) _ (conjoined_regular _ C1) (conjoined_regular _ C2)), <- P1.
    set (A := cis (T0 + snd q)). set (B := cis (argdet _ _ _ _ _ _ _ _)). clearbody A B. ring. }
  assert (Cmult (cis (T0 + snd (fst st, 0))) (phase y0) = phase (fst (fst st, 0))) as P0 by (cbn [fst snd]; rewrite Rplus_0_r; exact Ph).
  destruct (negb _).
  - destruct (dir_eqb (sdir s) Dfwd).
    + destruct (K (Rltb (smin s) a) (smin s - a) (fst st, 0) Cj P0) as [C1 P1]. destruct (K (Rltb (smin s) b) (b - smin s) _ C1 P1) as [C2 P2]. split; [exact C2|exact P2].
    + destruct (K (Rltb a (smax s)) (smax s - a) (fst st, 0) Cj P0) as [C1 P1]. destruct (K (Rltb b (smax s)) (b - smax s) _ C1 P1) as [C2 P2]. split; [exact C2|exact P2].
  - split; [exact Cj|exact P0].
Qed.
Variables (l : list (sector R P)) (lo hi : R).
Hypothesis PT : partition lo hi l.
Hypothesis OR : forall s, In s l -> smin s <= smax s.
Theorem propagate_phase : forall E u a b (y : CYn), lo <= a <= hi -> lo <= b <= hi -> conjoined y ->
  (forall s d, In s l -> symplectic (calcT s E d u)) ->
  exists y' th, mpropagate calcT ad l lo hi E y a b u = Ret (y', th) /\ conjoined y' /\ Cmult (cis th) (phase y) = phase y'.
Proof using EO PT OR.
  intros E u a b y Ha Hb Cj Sy. rewrite (mpropagate_fold calcT ad l lo hi PT OR) by assumption.
  assert (forall ss st, (forall s, In s ss -> In s l) -> conjoined (fst st) -> Cmult (cis (snd st)) (phase y) = phase (fst st) ->
    let st' := fold_left (fun st s => stepA calcT ad E u a b s st) ss st in conjoined (fst st') /\ Cmult (cis (snd st')) (phase y) = phase (fst st')) as K.
  { induction ss as [|s ss IH]; intros st Hin C1 P1; [split; assumption|]. cbn [fold_left].
    destruct (stepA_phase E u a b s y st (fun d => Sy s d (Hin s (or_introl eq_refl))) C1 P1) as [C2 P2]. apply IH; auto. intros t Ht. apply Hin. right. exact Ht. }
  set (ss := if Rleb a b then l else rev l).
  destruct (K ss (y, 0)) as [C2 P2].
  - intros s Hs. unfold ss in Hs. destruct (Rleb a b); [exact Hs|apply in_rev; exact Hs].
  - exact Cj.
  - cbn [fst snd]. unfold cis. rewrite cos_0, sin_0. apply Cmult_1_l.
  - destruct (fold_left _ ss (y, 0)) as [y' th]. exists y', th. auto.
Qed.
End Phase.

Section Uncoupled.
Context {n : nat} {P : Type}.
Notation CYn := (@CY R_fieldType n n).
Notation sec := (sector R P).
Variable eigs : 'M[C]_n -> list C.
Hypothesis EO : eigenvalues_ok eigs.
Variable ev : sec -> 'I_n -> R.
Variable calcT : sec -> R -> R -> bool -> @CT R_fieldType n.
Notation ad := (argdet eta2 eigs ev).
Variables (lo hi E : R) (u : bool) (a b : R).
Variables z z' phi : 'I_n -> R -> R.
Hypothesis N : forall i, nontrivial (z i) (z' i) lo hi.
Hypothesis L : forall i, lift (z i) (z' i) lo hi (phi i).

Definition total (x : R) : R := lsum [seq 2 * phi i x | i <- enum 'I_n].
Lemma total_diff : forall p q, lsum [seq 2 * (phi i q - phi i p) | i <- enum 'I_n] = total q - total p.
Proof. intros p q. unfold total. induction (enum 'I_n) as [|i t IH]; cbn; [ring|]. cbn in IH. rewrite IH. ring. Qed.
Definition at_ (x : R) (y : CYn) : Prop := cy y = stateM z z' x.
Lemma at_diag : forall x y, at_ x y -> diagonal_state z z' x y.
Proof. intros x y H. unfold diagonal_state, Yof, Y'of. rewrite H. unfold stateM. rewrite col_mxKu, col_mxKd. split; reflexivity. Qed.
Definition neg' : 'I_n -> R -> R := fun i x => - z' i x.
Lemma crev_state : forall x y, at_ x y -> cy (crev y) = stateM z neg' x.
Proof.
  intros x y H. unfold crev. cbn [cy]. rewrite H. unfold stateM. rewrite col_mxKu, col_mxKd. f_equal.
  exact (opp_diag (fun i => z' i x)).
Qed.
Lemma crev_back : forall x (y : CYn), cy y = stateM z neg' x -> at_ x (crev y).
Proof.
  intros x y H. unfold at_, crev. cbn [cy]. rewrite H. unfold stateM. rewrite col_mxKu, col_mxKd. f_equal.
  exact (opp_diag' (fun i => z' i x)).
Qed.

(** the sectors and their steps *)
Definition good (s : sec) : Prop := (sdir s = Dfwd \/ sdir s = Dbwd) /\ smin s < smax s /\ lo <= smin s /\ smax s <= hi /\
  (forall i, chan (ev s i - E) (smin s) (smax s) (z i) (z' i)) /\ exact_channels calcT (ev s) E u s a /\ exact_channels calcT (ev s) E u s b.

Ltac mm := unfold base_dist, reachP, dclamp in *; unfold csh, Rmax, Rmin in *; repeat match goal with
  | |- context [Rltb ?x ?y] => let K := fresh "K" in destruct (Rltb x y) eqn:K; [apply Rltb_true in K|apply Rltb_false in K]
  | |- context [Rleb ?x ?y] => let K := fresh "K" in destruct (Rleb x y) eqn:K; [apply Rleb_true in K|apply Rleb_false in K]
  | |- context [Rle_dec ?x ?y] => destruct (Rle_dec x y)
  | H : context [Rle_dec ?x ?y] |- _ => destruct (Rle_dec x y) end; try lra.

Lemma reach_in : forall (s : sec) x, smin s <= smax s -> smin s <= reachP s x <= smax s.
Proof. intros s x H. mm. Qed.

(** one delta step: from the start of the sector to x and back *)
Section Delta.
Variable s : sec.
Hypothesis G : good s.
Variable x : R.
Hypothesis X : exact_channels calcT (ev s) E u s x.

Lemma ad_value : forall delta p0 p1 (y0 y1 : CYn), smin s <= p0 <= smax s -> smin s <= p1 <= smax s -> at_ p0 y0 -> at_ p1 y1 -> dclamp s delta = p1 - p0 ->
  ad s E delta y0 y1 = total p1 - total p0.
Proof using EO N L G.
  intros delta p0 p1 y0 y1 H0 H1 A0 A1 Hd. destruct G as (_ & _ & Glo & Ghi & Ch & _).
  rewrite <- total_diff. apply (argdet_diag eigs EO z z' phi (smin s) (smax s)); auto.
  - intros i t Ht. apply N. lra.
  - intro i. destruct (L i) as [L1 L2]. split; [exact L1|]. intros t Ht. apply L2. lra.
  - apply at_diag, A0.
  - apply at_diag, A1.
Qed.
Lemma fwd_out : sdir s = Dfwd -> smin s < x -> forall y, at_ (smin s) y ->
  let q := cpropDeltaA calcT ad s E u (x - smin s) y in at_ (reachP s x) (fst q) /\ snd q = total (reachP s x) - total (smin s).
Proof using EO N L G X.
  intros D Hx y A q. assert (at_ (reachP s x) (fst q)) as A1.
  { unfold q, cpropDeltaA, cpropDelta. cbn [fst]. rewrite D. cbn [dir_eqb]. rewrite (proj2 (Rleb_true 0 _)) by lra.
    destruct G as (_ & Hs & _ & _ & Ch & _). replace (if Rltb (csh s) (x - smin s) then csh s else x - smin s) with (base_dist s x) by (unfold base_dist; rewrite D; mm).
    destruct X as [_ H]. specialize (H z z' Ch). rewrite D in H. unfold at_, cmul. cbn [cy]. rewrite A. exact H. }
  split; [exact A1|]. destruct G as (_ & Hs & _). unfold q at 1. unfold cpropDeltaA. cbn [snd].
  apply ad_value; [lra|apply reach_in; lra|exact A|exact A1|]. mm.
Qed.
Lemma fwd_in : sdir s = Dfwd -> smin s < x -> forall y, at_ (reachP s x) y ->
  let q := cpropDeltaA calcT ad s E u (smin s - x) y in at_ (smin s) (fst q) /\ snd q = total (smin s) - total (reachP s x).
Proof using EO N L G X.
  intros D Hx y A q. assert (at_ (smin s) (fst q)) as A1.
  { unfold q, cpropDeltaA, cpropDelta. cbn [fst]. rewrite D. cbn [dir_eqb]. rewrite (proj2 (Rleb_false 0 _)) by lra.
    destruct G as (_ & Hs & _ & _ & Ch & _). replace (if Rltb (csh s) (- (smin s - x)) then csh s else - (smin s - x)) with (base_dist s x) by (unfold base_dist; rewrite D; mm).
    destruct X as [U H]. specialize (H z z' Ch). rewrite D in H. unfold at_, cdiv. cbn [cy]. rewrite A, <- H. exact (mulKmx U _). }
  split; [exact A1|]. destruct G as (_ & Hs & _). unfold q at 1. unfold cpropDeltaA. cbn [snd].
  apply ad_value; [apply reach_in; lra|lra|exact A|exact A1|]. mm.
Qed.
Lemma bwd_out : sdir s = Dbwd -> x < smax s -> forall y, at_ (smax s) y ->
  let q := cpropDeltaA calcT ad s E u (x - smax s) y in at_ (reachP s x) (fst q) /\ snd q = total (reachP s x) - total (smax s).
Proof using EO N L G X.
  intros D Hx y A q. assert (at_ (reachP s x) (fst q)) as A1.
  { unfold q, cpropDeltaA, cpropDelta. cbn [fst]. rewrite D. cbn [dir_eqb]. rewrite (proj2 (Rleb_true 0 _)) by lra.
    destruct G as (_ & Hs & _ & _ & Ch & _). replace (if Rltb (csh s) ((x - smax s) * -1) then csh s else (x - smax s) * -1) with (base_dist s x) by (unfold base_dist; rewrite D; mm).
    destruct X as [_ H]. specialize (H z z' Ch). rewrite D in H. apply crev_back. unfold cmul. cbn [cy]. rewrite (crev_state _ _ A). exact H. }
  split; [exact A1|]. destruct G as (_ & Hs & _). unfold q at 1. unfold cpropDeltaA. cbn [snd].
  apply ad_value; [lra|apply reach_in; lra|exact A|exact A1|]. mm.
Qed.
Lemma bwd_in : sdir s = Dbwd -> x < smax s -> forall y, at_ (reachP s x) y ->
  let q := cpropDeltaA calcT ad s E u (smax s - x) y in at_ (smax s) (fst q) /\ snd q = total (smax s) - total (reachP s x).
Proof using EO N L G X.
  intros D Hx y A q. assert (at_ (smax s) (fst q)) as A1.
  { unfold q, cpropDeltaA, cpropDelta. cbn [fst]. rewrite D. cbn [dir_eqb]. rewrite (proj2 (Rleb_false 0 _)) by lra.
    destruct G as (_ & Hs & _ & _ & Ch & _). replace (if Rltb (csh s) (- ((smax s - x) * -1)) then csh s else - ((smax s - x) * -1)) with (base_dist s x) by (unfold base_dist; rewrite D; mm).
    destruct X as [U H]. specialize (H z z' Ch). rewrite D in H. apply crev_back. unfold cdiv. cbn [cy]. rewrite (crev_state _ _ A).
    change (fun i x => GRing.opp (z' i x)) with neg' in H. rewrite <- H. exact (mulKmx U _). }
  split; [exact A1|]. destruct G as (_ & Hs & _). unfold q at 1. unfold cpropDeltaA. cbn [snd].
  apply ad_value; [apply reach_in; lra|lra|exact A|exact A1|]. mm.
Qed.
End Delta.

Lemma sector_stepA : forall s y T, good s -> ~ (smax s <= a /\ smax s <= b \/ a <= smin s /\ b <= smin s) -> at_ (reachP s a) y ->
  let st := stepA calcT ad E u a b s (y, T) in at_ (reachP s b) (fst st) /\ snd st = T + (total (reachP s b) - total (reachP s a)).
Proof using EO N L.
  intros s y T G Nn A. pose proof G as (D & Hs & _ & _ & _ & Xa & Xb). unfold stepA, cspropA. cbn [fst snd].
  destruct ((Rleb (smax s) a && Rleb (smax s) b) || (Rleb a (smin s) && Rleb b (smin s))) eqn:Q.
  { exfalso. apply Nn. apply orb_true_iff in Q. rewrite !andb_true_iff, !Rleb_true in Q. exact Q. }
  cbn [negb].
  destruct D as [D|D]; rewrite D; cbn [dir_eqb].
  - set (w := if Rltb (smin s) a then _ else (y, 0)).
    assert (exists y1 t1, w = (y1, t1) /\ at_ (smin s) y1 /\ t1 = total (smin s) - total (reachP s a)) as (y1 & t1 & E1 & A1 & T1).
    { unfold w. destruct (Rltb (smin s) a) eqn:La; [apply Rltb_true in La|apply Rltb_false in La].
      - destruct (fwd_in s G a Xa D La y A) as [B1 B2]. eexists; eexists; split; [reflexivity|]. split; [exact B1|]. cbn [fst snd] in *. rewrite B2. ring.
      - assert (reachP s a = smin s) as R1 by mm. exists y, 0. split; [reflexivity|]. rewrite R1 in A. split; [exact A|]. rewrite R1. ring. }
    rewrite E1. destruct (Rltb (smin s) b) eqn:Lb; [apply Rltb_true in Lb|apply Rltb_false in Lb].
    + destruct (fwd_out s G b Xb D Lb y1 A1) as [B1 B2]. cbn [fst snd] in *. split; [exact B1|]. rewrite B2, T1. ring.
    + assert (reachP s b = smin s) as -> by mm. cbn [fst snd]. split; [exact A1|]. rewrite T1. ring.
  - set (w := if Rltb a (smax s) then _ else (y, 0)).
    assert (exists y1 t1, w = (y1, t1) /\ at_ (smax s) y1 /\ t1 = total (smax s) - total (reachP s a)) as (y1 & t1 & E1 & A1 & T1).
    { unfold w. destruct (Rltb a (smax s)) eqn:La; [apply Rltb_true in La|apply Rltb_false in La].
      - destruct (bwd_in s G a Xa D La y A) as [B1 B2]. eexists; eexists; split; [reflexivity|]. split; [exact B1|]. cbn [fst snd] in *. rewrite B2. ring.
      - assert (reachP s a = smax s) as R1 by mm. exists y, 0. split; [reflexivity|]. rewrite R1 in A. split; [exact A|]. rewrite R1. ring. }
    rewrite E1. destruct (Rltb b (smax s)) eqn:Lb; [apply Rltb_true in Lb|apply Rltb_false in Lb].
    + destruct (bwd_out s G b Xb D Lb y1 A1) as [B1 B2]. cbn [fst snd] in *. split; [exact B1|]. rewrite B2, T1. ring.
    + assert (reachP s b = smax s) as -> by mm. cbn [fst snd]. split; [exact A1|]. rewrite T1. ring.
Qed.

(** the whole list *)
Definition mid (p q x : R) : R := Rmax p (Rmin q x).
Lemma run_up : a <= b -> forall (l : list sec) lo' hi' y T, chain lo' hi' l -> (forall s, In s l -> good s) -> at_ (mid a b lo') y ->
  let st := fold_left (fun st s => stepA calcT ad E u a b s st) l (y, T) in at_ (mid a b hi') (fst st) /\ snd st = T + (total (mid a b hi') - total (mid a b lo')).
Proof using EO N L.
  intros Hab. induction l as [|s l IH]; intros lo' hi' y T Ch G A; cbn in Ch.
  - subst hi'. cbn. split; [exact A|ring].
  - destruct Ch as [E1 Ch]. cbn [fold_left]. pose proof (G s (or_introl eq_refl)) as Gs. pose proof Gs as (_ & Hs & _).
    assert (let st := stepA calcT ad E u a b s (y, T) in at_ (mid a b (smax s)) (fst st) /\ snd st = T + (total (mid a b (smax s)) - total (mid a b lo'))) as [B1 B2].
    { destruct (Rle_dec (smax s) a) as [C1|C1]; [|destruct (Rle_dec b (smin s)) as [C2|C2]].
      - rewrite stepA_noop by lra. assert (mid a b (smax s) = mid a b lo') as -> by (unfold mid in *; rewrite <- E1; mm). split; [exact A|cbn; ring].
      - rewrite stepA_noop by lra. assert (mid a b (smax s) = mid a b lo') as -> by (unfold mid in *; rewrite <- E1; mm). split; [exact A|cbn; ring].
      - assert (mid a b lo' = reachP s a) as Q1 by (unfold mid in *; rewrite <- E1; mm). assert (mid a b (smax s) = reachP s b) as Q2 by (unfold mid; mm).
        rewrite Q1 in A |- *. rewrite Q2. apply sector_stepA; [exact Gs|lra|exact A]. }
    destruct (stepA calcT ad E u a b s (y, T)) as [y1 T1]. cbn [fst snd] in B1, B2.
    destruct (IH (smax s) hi' y1 T1 Ch (fun t Ht => G t (or_intror Ht)) B1) as [C1 C2]. split; [exact C1|]. rewrite C2, B2. ring.
Qed.
Lemma run_down : b < a -> forall (l : list sec) lo' hi' y T, chain lo' hi' l -> (forall s, In s l -> good s) -> at_ (mid b a hi') y ->
  let st := fold_left (fun st s => stepA calcT ad E u a b s st) (rev l) (y, T) in at_ (mid b a lo') (fst st) /\ snd st = T + (total (mid b a lo') - total (mid b a hi')).
Proof using EO N L.
  intros Hab. induction l as [|s l IH]; intros lo' hi' y T Ch G A; cbn in Ch.
  - subst hi'. cbn. split; [exact A|ring].
  - destruct Ch as [E1 Ch]. cbn [rev]. rewrite fold_left_app. cbn [fold_left]. pose proof (G s (or_introl eq_refl)) as Gs. pose proof Gs as (_ & Hs & _).
    destruct (IH (smax s) hi' y T Ch (fun t Ht => G t (or_intror Ht)) A) as [A1 T1]. destruct (fold_left _ (rev l) (y, T)) as [y1 t1]. cbn [fst snd] in A1, T1.
    assert (let st := stepA calcT ad E u a b s (y1, t1) in at_ (mid b a lo') (fst st) /\ snd st = t1 + (total (mid b a lo') - total (mid b a (smax s)))) as [B1 B2].
    { destruct (Rle_dec (smax s) b) as [C1|C1]; [|destruct (Rle_dec a (smin s)) as [C2|C2]].
      - rewrite stepA_noop by lra. assert (mid b a lo' = mid b a (smax s)) as -> by (unfold mid in *; rewrite <- E1; mm). split; [exact A1|cbn; ring].
      - rewrite stepA_noop by lra. assert (mid b a lo' = mid b a (smax s)) as -> by (unfold mid in *; rewrite <- E1; mm). split; [exact A1|cbn; ring].
      - assert (mid b a lo' = reachP s b) as Q1 by (unfold mid in *; rewrite <- E1; mm). assert (mid b a (smax s) = reachP s a) as Q2 by (unfold mid; mm).
        rewrite Q2 in A1 |- *. rewrite Q1. apply sector_stepA; [exact Gs|lra|exact A1]. }
    split; [exact B1|]. rewrite B2, T1. ring.
Qed.
Variable l : list sec.
Hypothesis PT : partition lo hi l.
Theorem uncoupled_angle : forall y, lo <= a <= hi -> lo <= b <= hi -> (forall s, In s l -> good s) -> at_ a y ->
  exists y' th, mpropagate calcT ad l lo hi E y a b u = Ret (y', th) /\ at_ b y' /\ th = total b - total a.
Proof using EO N L PT.
  intros y Ha Hb G A. rewrite (mpropagate_fold calcT ad l lo hi PT) by (auto; intros s Hs; destruct (G s Hs) as (_ & H & _); lra).
  destruct (Rleb a b) eqn:Q; [apply Rleb_true in Q|apply Rleb_false in Q].
  - assert (mid a b lo = a) as M1 by (unfold mid; mm). assert (mid a b hi = b) as M2 by (unfold mid; mm).
    pose proof (run_up Q l lo hi y 0 (proj2 PT) G) as K. rewrite M1, M2 in K. destruct (K A) as [B1 B2].
    destruct (fold_left _ l (y, 0)) as [y' th]. exists y', th. repeat split; [exact B1|]. cbn [snd] in B2. rewrite B2. ring.
  - assert (mid b a lo = b) as M1 by (unfold mid; mm). assert (mid b a hi = a) as M2 by (unfold mid; mm).
    pose proof (run_down Q l lo hi y 0 (proj2 PT) G) as K. rewrite M1, M2 in K. destruct (K A) as [B1 B2].
    destruct (fold_left _ (rev l) (y, 0)) as [y' th]. exists y', th. repeat split; [exact B1|]. cbn [snd] in B2. rewrite B2. ring.
Qed.
End Uncoupled.
Lemma chain_orderP : forall {P} (l : list (sector R P)) lo hi, chain lo hi l -> (forall s, In s l -> smin s <= smax s) -> lo <= hi /\ forall s, In s l -> lo <= smin s /\ smax s <= hi.
Proof.
  intros P. induction l as [|s l IH]; intros lo hi C H; cbn in C.
  - subst. split; [lra|intros s []].
  - destruct C as [E C]. pose proof (H s (or_introl eq_refl)). destruct (IH _ _ C (fun t Ht => H t (or_intror Ht))) as [A B]. split; [lra|].
    intros t [->|Ht]; [lra|]. destruct (B t Ht). lra.
Qed.
