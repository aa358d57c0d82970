(** C51-C53: coupled problems. *)
From Coq Require Import String Reals ZArith List Bool Lia Lra Permutation.
From Coq Require Import ssrbool.
From mathcomp Require Import ssralg matrix.
From Verif Require Import Base M_Sectors S_Sectors P_Lookup M_Matscs P_Matscs.
Import ListNotations.
Open Scope R_scope.

Section C51.
Context {F : fieldType} {n : nat} {P : Type}.
Notation sec := (sector R P).
Variable calcT : sec -> R -> R -> bool -> @CT F n.
Variable argdet : sec -> R -> R -> @CY F n n -> @CY F n n -> R.
Variables (l : list sec) (lo hi : R).
Hypothesis PT : partition lo hi l.
Hypothesis OR : forall s, In s l -> smin s <= smax s.

(** ** C51 *)

Lemma mcontains_spec p : mcontains lo hi p = true <-> lo <= p <= hi.
Proof. unfold mcontains. rewrite andb_true_iff, !Rleb_true. lra. Qed.

(** propagateColumn and propagate reject every pair with a point outside ... *)
Theorem C51_columns_reject r E (y : CY r) (ys : CY n) a b u : ~ (lo <= a <= hi) \/ ~ (lo <= b <= hi) ->
  mcolumn calcT l lo hi E y a b u = Throw "Matscs::propagate(): a and b should be in the interval" /\
  mpropagate calcT argdet l lo hi E ys a b u = Throw "Matscs::propagate(): a and b should be in the interval".
Proof.
  intros H. unfold mcolumn, mpropagate.
  assert (negb (mcontains lo hi a) || negb (mcontains lo hi b) = true) as ->; auto.
  apply orb_true_iff. rewrite <- !mcontains_spec in H. destruct (mcontains lo hi a), (mcontains lo hi b); simpl; auto; destruct H; congruence.
Qed.
(** ... and for points inside they pass y through every sector of the list in order of travel (the sectors not
    between a and b do nothing). *)
Theorem C51_columns_inside r E (y : CY r) a b u : lo <= a <= hi -> lo <= b <= hi ->
  mcolumn calcT l lo hi E y a b u =
    Ret (fold_left (fun z s => csprop calcT s E u a b z) (if Rleb a b then l else rev l) y).
Proof.
  intros Ha Hb. unfold mcolumn. rewrite (proj2 (mcontains_spec a) Ha), (proj2 (mcontains_spec b) Hb). cbn [negb orb].
  apply (loop_full (fun s z => csprop calcT s E u a b z) a b) with (lo := lo) (hi := hi); auto.
  intros; now apply csprop_noop.
Qed.
(** propagatePsi: the same for points inside ... *)
Theorem C51_inside_partial E (psi : 'M[F]_n) a b : lo <= a <= hi -> lo <= b <= hi ->
  mpsi calcT l E psi a b = Ret (fold_left (fun z s => spsi calcT s E a b z) (if Rleb a b then l else rev l) psi).
Proof.
  intros Ha Hb. unfold mpsi.
  apply (loop_full (fun s z => spsi calcT s E a b z) a b) with (lo := lo) (hi := hi); auto.
  intros; now apply spsi_noop.
Qed.
(** ... but a start outside the domain indexes the sector vector with -1: undefined behaviour, whatever the problem. *)
Theorem C51_refuted E (psi : 'M[F]_n) a b : ~ (lo <= a <= hi) -> mpsi calcT l E psi a b = UB "vector index < 0".
Proof.
  intros Ha. unfold mpsi. rewrite (find_outside l lo hi PT OR a Ha). cbn [bind].
  assert (0 < length l)%nat as L by (destruct l; [exfalso; now apply (proj1 PT)|simpl; lia]).
  destruct (length l) as [|k]; [lia|]. reflexivity.
Qed.

Lemma visit_end fuel i a b : (i < length l)%nat ->
  (if Rltb a b then length l - i <= fuel else i < fuel)%nat -> exists ss, visit fuel l a b (Z.of_nat i) = Ret ss.
Proof.
  revert i. induction fuel as [|f IH]; intros i Hi Hf; [destruct (Rltb a b); lia|].
  cbn [visit]. destruct (vget_in l (Z.of_nat i)) as [s [V _]]; [lia|]. rewrite V. cbn [bind].
  destruct (contains s b); [eauto|]. cbv zeta.
  destruct ((0 <=? _)%Z && _) eqn:G; [|eauto]. apply andb_true_iff in G as [G1 G2]. apply Z.leb_le in G1. apply Z.ltb_lt in G2.
  destruct (Rltb a b) eqn:AB.
  - replace (Z.of_nat i + 1)%Z with (Z.of_nat (S i)) by lia. destruct (IH (S i)) as [ss ->]; [lia|lia|]. cbn [bind]. eauto.
  - replace (Z.of_nat i + -1)%Z with (Z.of_nat (i - 1)) by lia. destruct (IH (i - 1)%nat) as [ss ->]; [lia|lia|]. cbn [bind]. eauto.
Qed.
(** A target outside the domain (from a start inside) is not noticed: some matrix is returned. *)
Theorem C51_target_refuted E (psi : 'M[F]_n) a b : lo <= a <= hi -> exists psi', mpsi calcT l E psi a b = Ret psi'.
Proof.
  intros Ha. unfold mpsi. destruct (find_visit l lo hi PT OR a a Ha Ha) as [i [_ [si [_ [Hi [_ [_ [_ [_ [_ [Fi _]]]]]]]]]]].
  rewrite Fi. cbn [bind]. rewrite loop_visit.
  assert (i < length l)%nat by (apply nth_error_Some; congruence).
  destruct (visit_end (length l) i a b) as [ss ->]; [auto|destruct (Rltb a b); lia|]. cbn [bind]. eauto.
Qed.

(** propagate returns the same solution as propagateColumn. *)
Lemma cspropA_fst s E u a b (y : CY n) : fst (cspropA calcT argdet s E u a b y) = csprop calcT s E u a b y.
Proof.
  unfold cspropA, csprop, cpropDeltaA. destruct (negb _); auto. cbv zeta.
  destruct (dir_eqb (sdir s) Dfwd).
  - destruct (Rltb (smin s) a), (Rltb (smin s) b); reflexivity.
  - destruct (Rltb a (smax s)), (Rltb b (smax s)); reflexivity.
Qed.
Theorem C51_same_solution E (y : CY n) a b u :
  (do q <- mpropagate calcT argdet l lo hi E y a b u; Ret (fst q)) = mcolumn calcT l lo hi E y a b u.
Proof.
  unfold mpropagate, mcolumn. destruct (_ || _); [reflexivity|].
  destruct (find_sector _ _ _) as [i|m|m|]; cbn [bind]; auto. rewrite !loop_visit.
  destruct (visit _ _ _ _ _) as [ss|m|m|]; cbn [bind]; auto. f_equal.
  generalize 0 as z. revert y. induction ss as [|s ss IH]; intros y z; auto. cbn [fold_left]. rewrite IH. cbn [fst]. now rewrite cspropA_fst.
Qed.

(** ** C52 *)

Lemma csprop_same r s E u a (y : CY r) : (forall e, ct (calcT s E e u) \in unitmx) -> csprop calcT s E u a a y = y.
Proof.
  intros U. unfold csprop. destruct (negb _); auto. cbv zeta. destruct (dir_eqb (sdir s) Dfwd).
  - destruct (Rltb (smin s) a) eqn:A; auto. apply Rltb_true in A. replace (a - smin s) with (- (smin s - a)) by ring. apply cDelta_inv; auto; lra.
  - destruct (Rltb a (smax s)) eqn:A; auto. apply Rltb_true in A. replace (a - smax s) with (- (smax s - a)) by ring. apply cDelta_inv; auto; lra.
Qed.
(** Columns: there and back is the identity when the step matrices are invertible. *)
Theorem C52_columns r E (y : CY r) a b u : lo <= a <= hi -> lo <= b <= hi ->
  (forall s e, In s l -> ct (calcT s E e u) \in unitmx) ->
  (do z <- mcolumn calcT l lo hi E y a b u; mcolumn calcT l lo hi E z b a u) = Ret y.
Proof.
  intros Ha Hb U. rewrite C51_columns_inside by auto. cbn [bind]. rewrite C51_columns_inside by auto. f_equal.
  assert (K : forall (l1 l2 : list sec) (z : CY r), l1 = rev l2 -> (forall s, In s l2 -> In s l) ->
     fold_left (fun z s => csprop calcT s E u b a z) l1 (fold_left (fun z s => csprop calcT s E u a b z) l2 z) = z).
  { intros l1 l2 z -> Q. apply (frun_inv calcT r l2 E u a b z). intros s e Hs. apply U. auto. }
  destruct (Rleb a b) eqn:AB; destruct (Rleb b a) eqn:BA; try apply Rleb_true in AB; try apply Rleb_true in BA; try apply Rleb_false in AB; try apply Rleb_false in BA; try lra.
  - assert (a = b) by lra. subst b.
    assert (N : forall l', (forall s, In s l' -> In s l) -> forall z : CY r, fold_left (fun z s => csprop calcT s E u a a z) l' z = z).
    { intros l'. induction l' as [|s l' IH]; intros Hl z; auto. cbn [fold_left]. rewrite csprop_same by (intros; apply U; apply Hl; simpl; auto). apply IH. intros; apply Hl; simpl; auto. }
    rewrite !N; auto.
  - apply K; auto.
  - apply K; [now rewrite rev_involutive|]. intros s Hs. now apply in_rev.
Qed.

(** From a sector boundary a, upwards through forward sectors or downwards through backward ones, the Riccati
    propagation is the matrix quotient u v^-1 of the propagated columns, as long as v stays invertible on the way. *)
Theorem C52_quotient_partial E (y : CY n) a b : (forall s, In s l -> smin s < smax s) -> lo <= a <= hi -> lo <= b <= hi ->
  is_boundary a l ->
  (a <= b -> forall s, In s l -> a <= smin s -> smin s < b -> sdir s = Dfwd) ->
  (b < a -> forall s, In s l -> smax s <= a -> b < smax s -> sdir s = Dbwd) ->
  (forall x z, Rmin a b <= x <= Rmax a b -> mcolumn calcT l lo hi E y a x true = Ret z -> dsubmx (cy z) \in unitmx) ->
  exists z, mcolumn calcT l lo hi E y a b true = Ret z /\
    mpsi calcT l E (usubmx (cy y) *m invmx (dsubmx (cy y)))%R a b = Ret (usubmx (cy z) *m invmx (dsubmx (cy z)))%R.
Proof.
  intros O Ha Hb Bd Df Db Rg. rewrite C51_columns_inside by auto. eexists. split; [reflexivity|].
  rewrite C51_inside_partial by auto. f_equal.
  change (fold_left (fun z s => spsi calcT s E a b z) (if Rleb a b then l else rev l) (quot y) = quot (crun calcT E a b (if Rleb a b then l else rev l) y)).
  assert (B : forall s, In s l -> smax s <= a \/ a <= smin s).
  { destruct Bd as [s0 [H0 Q]]. apply In_nth_error in H0 as [i Hi].
    assert (OLl : ordered l) by (intros s Hs; apply Rleb_true; auto).
    intros t Ht. pose proof (O t Ht) as Ot. apply In_nth_error in Ht as [k Hk]. destruct PT as [_ Ch].
    pose proof (O s0 (nth_error_In _ _ Hi)) as O0.
    destruct (lt_eq_lt_dec i k) as [[L| -> ]|L].
    - assert (exists s1, nth_error l (S i) = Some s1) as [s1 H1]. { assert (k < length l)%nat by (apply nth_error_Some; congruence). destruct (nth_error l (S i)) eqn:Q1; eauto. apply nth_error_None in Q1. lia. }
      pose proof (chain_nth l lo hi i s0 s1 Ch Hi H1) as M. destruct (chain_mono l lo hi (S i) k s1 t Ch OLl ltac:(lia) H1 Hk) as [M1 _]. apply Rleb_true in M1. lra.
    - assert (t = s0) by congruence. subst t. lra.
    - assert (exists s1, nth_error l (S k) = Some s1) as [s1 H1]. { assert (i < length l)%nat by (apply nth_error_Some; congruence). destruct (nth_error l (S k)) eqn:Q1; eauto. apply nth_error_None in Q1. lia. }
      pose proof (chain_nth l lo hi k t s1 Ch Hk H1) as M. destruct (chain_mono l lo hi (S k) i s1 s0 Ch OLl ltac:(lia) H1 Hi) as [M1 _]. apply Rleb_true in M1. lra. }
  destruct (Rleb a b) eqn:AB; [apply Rleb_true in AB|apply Rleb_false in AB].
  - apply (riccati_up calcT l E a b AB lo hi); auto. { apply PT. }
    intros x Hx. apply (Rg x). { unfold Rmin, Rmax; destruct (Rle_dec a b); lra. }
    rewrite C51_columns_inside by lra. rewrite (proj2 (Rleb_true a x) ltac:(lra)). reflexivity.
  - apply (riccati_down calcT (rev l) E a b ltac:(lra)); auto.
    + apply (chain_below calcT lo hi); auto. apply PT.
    + intros s Hs. apply O. now apply in_rev.
    + intros s Hs. apply B. now apply in_rev.
    + intros s Hs. apply Db; auto. now apply in_rev.
    + intros x Hx. destruct (Req_dec x a) as [->|Nx].
      * rewrite crun_noop by (intros s Hs; apply in_rev in Hs; destruct (B s Hs); unfold outside; lra).
        specialize (Rg a). rewrite C51_columns_inside in Rg by lra.
        apply Rg. { unfold Rmin, Rmax; destruct (Rle_dec a b); lra. }
        rewrite (proj2 (Rleb_true a a) ltac:(lra)). f_equal. apply (crun_noop calcT E a a l y); intros s Hs; destruct (B s Hs); unfold outside; lra.
      * apply (Rg x). { unfold Rmin, Rmax; destruct (Rle_dec a b); lra. }
        rewrite C51_columns_inside by lra. rewrite (proj2 (Rleb_false a x) ltac:(lra)). reflexivity.
Qed.

(** The reason there-and-back fails: inside a sector the step by -d is the same computation as the step by d, for
    every sector, energy, psi and d. *)
Theorem C52_step_ignores_direction s E (psi : 'M[F]_n) d : smin s < smax s -> psiDelta calcT s E psi (- d) = psiDelta calcT s E psi d.
Proof.
  intros H. unfold psiDelta.
  assert (K : forall e : R, (if Rleb 0 (- e) then - e else - - e) = (if Rleb 0 e then e else - e)).
  { intros e. destruct (Rleb 0 (- e)) eqn:A, (Rleb 0 e) eqn:B; try apply Rleb_true in A; try apply Rleb_true in B; try apply Rleb_false in A; try apply Rleb_false in B; lra. }
  cbv zeta. destruct (dir_eqb (sdir s) Dbwd).
  - replace (- d * -1) with (- (d * -1)) by ring. now rewrite K.
  - now rewrite K.
Qed.
End C51.

Lemma solve_one (F : fieldType) (Y : 'M[F]_1) : trmx (invmx (trmx (@scalar_mx F 1 (GRing.one F))) *m trmx Y)%R = Y.
Proof.
  assert (K : invmx (trmx (@scalar_mx F 1 (GRing.one F))) = scalar_mx (GRing.one F)).
  { transitivity (invmx (@scalar_mx F 1 (GRing.one F))); [f_equal; apply tr_scalar_mx|apply invmx1]. }
  rewrite K. transitivity (trmx (trmx Y)); [f_equal; apply mul1mx|apply trmxK].
Qed.
(** There and back does not return psi: on one forward sector [0, 1] with V = E (T(1) = [1 1; 0 1], invertible, and
    both solves have the 1x1 matrix 1), for every psi the result is psi + 2. *)
Theorem C52_refuted (F : fieldType) (E : R) : GRing.add (GRing.one F) (GRing.one F) <> GRing.zero F ->
  exists (calcT : sector R unit -> R -> R -> bool -> @CT F 1) (l : list (sector R unit)),
    partition 0 1 l /\ (forall s, In s l -> smin s < smax s /\ sdir s = Dfwd) /\
    (forall s e u, ct (calcT s E e u) = @block_mx F 1 1 1 1 (scalar_mx (GRing.one F)) (scalar_mx (GRing.one F)) (const_mx (GRing.zero F)) (scalar_mx (GRing.one F))) /\
    forall psi : 'M[F]_1, exists psi', mpsi calcT l E psi 0 1 = Ret psi' /\ exists psi'', mpsi calcT l E psi' 1 0 = Ret psi'' /\ psi'' <> psi.
Proof.
  intros Two.
  set (T := @block_mx F 1 1 1 1 (scalar_mx (GRing.one F)) (scalar_mx (GRing.one F)) (const_mx (GRing.zero F)) (scalar_mx (GRing.one F))).
  set (calcT := fun (_ : sector R unit) (_ _ : R) (_ : bool) => mkCT T (const_mx (GRing.zero F))).
  set (s0 := mkSector 0 1 Dfwd tt : sector R unit).
  exists calcT, [s0].
  assert (PT : partition 0 1 [s0]) by (unfold partition; split; [discriminate|cbn; auto]).
  assert (OR : forall s, In s [s0] -> smin s <= smax s) by (intros s [<-|[]]; cbn; lra).
  split; [auto|]. split; [intros s [<-|[]]; cbn; split; [lra|auto]|]. split; [reflexivity|].
  assert (Step : forall p d, d = 1 \/ d = -1 -> psiDelta calcT s0 E p d = GRing.add p (scalar_mx (GRing.one F))).
  { assert (St1 : forall p, psiDelta calcT s0 E p 1 = GRing.add p (scalar_mx (GRing.one F))).
    { intros p. unfold psiDelta. cbn [sdir s0 dir_eqb]. rewrite (proj2 (Rleb_true 0 1)) by lra. cbv zeta. unfold csh. cbn [smin smax s0].
      replace (1 - 0) with 1 by ring. rewrite (proj2 (Rltb_false 1 1)) by lra. rewrite (proj2 (Rltb_true 0 1)) by lra.
      unfold T00, T01, T10, T11. cbn [ct calcT]. unfold T.
      rewrite block_mxKul, block_mxKur, block_mxKdl, block_mxKdr, !sc1.
      change (const_mx (GRing.zero F)) with (GRing.zero (matrix_zmodType F 1 1)).
      rewrite mul0mx, GRing.addr0. rewrite mul1mx. etransitivity; [apply solve_one|]. apply GRing.addrC. }
    intros p d [->| ->]; [apply St1|]. replace (-1) with (- (1)) by ring. rewrite C52_step_ignores_direction by (cbn; lra). apply St1. }
  intros psi.
  assert (R1 : forall p, mpsi calcT [s0] E p 0 1 = Ret (GRing.add p (scalar_mx (GRing.one F)))).
  { intros p. rewrite (C51_inside_partial calcT [s0] 0 1 PT OR) by lra. rewrite (proj2 (Rleb_true 0 1)) by lra. cbn [fold_left]. f_equal.
    unfold spsi. cbn [smin smax sdir s0 dir_eqb]. rewrite (proj2 (Rleb_false 1 0)), (proj2 (Rleb_true 0 0)) by lra. cbn [andb orb negb].
    rewrite (proj2 (Rltb_false 0 0)), (proj2 (Rltb_true 0 1)) by lra. apply Step. left. ring. }
  assert (R2 : forall p, mpsi calcT [s0] E p 1 0 = Ret (GRing.add p (scalar_mx (GRing.one F)))).
  { intros p. rewrite (C51_inside_partial calcT [s0] 0 1 PT OR) by lra. rewrite (proj2 (Rleb_false 1 0)) by lra. cbn [rev app fold_left]. f_equal.
    unfold spsi. cbn [smin smax sdir s0 dir_eqb]. rewrite (proj2 (Rleb_false 1 0)), (proj2 (Rleb_true 1 1)) by lra. cbn [andb orb negb].
    rewrite (proj2 (Rltb_true 0 1)), (proj2 (Rltb_false 0 0)) by lra. apply Step. right. ring. }
  exists (GRing.add psi (scalar_mx (GRing.one F))). split; [apply R1|].
  eexists. split; [apply R2|]. intros K.
  apply Two. 
  assert (Q : GRing.add (scalar_mx (GRing.one F)) (scalar_mx (GRing.one F)) = GRing.zero (matrix_zmodType F 1 1)).
  { rewrite <- (GRing.addrA psi) in K. apply (f_equal (GRing.add (GRing.opp psi))) in K. rewrite GRing.addKr, GRing.addNr in K. exact K. }
  apply (f_equal (fun M : 'M[F]_1 => mxtrace M)) in Q. rewrite mxtraceD, mxtrace0 in Q. rewrite !mxtrace_scalar in Q. exact Q.
Qed.

(** ** C53 *)

Section C53.
Context {F : fieldType} {n : nat} {P : Type}.
Notation sec := (sector R P).
Variable calcT : sec -> R -> R -> bool -> @CT F n.
Notation zeroY := (mkCY (const_mx (GRing.zero F)) (const_mx (GRing.zero F)) : @CY F n n).

Lemma cmul_zero (t : @CT F n) : cmul t zeroY = zeroY.
Proof.
  unfold cmul. cbn [cy ce]. change (const_mx (GRing.zero F)) with (GRing.zero (matrix_zmodType F (n + n) n)).
  now rewrite !mulmx0, GRing.addr0.
Qed.

Fixpoint take_upto (c : R) (x : list R) : list R := match x with [] => [] | p :: t => if Rleb p c then p :: take_upto c t else [] end.
Fixpoint drop_upto (c : R) (x : list R) : list R := match x with [] => [] | p :: t => if Rleb p c then drop_upto c t else x end.
Lemma take_drop c x : x = take_upto c x ++ drop_upto c x.
Proof. induction x as [|p t IH]; simpl; auto. destruct (Rleb p c); simpl; congruence. Qed.

Lemma ef_inner_past fuel (l : list sec) E s p i : (0 <= i < Z.of_nat (length l))%Z -> (length l <= Z.to_nat i + fuel)%nat -> smax s < p ->
  ef_inner calcT fuel l E s p i zeroY = Ret None.
Proof.
  revert i. induction fuel as [|f IH]; intros i Hi Hf Hp; [lia|]. cbn [ef_inner].
  rewrite (proj2 (Rltb_true _ _) Hp). cbv zeta. rewrite cmul_zero.
  destruct (Z.leb_spec (Z.of_nat (length l)) (i + 1)); auto. apply IH; auto; lia.
Qed.
Lemma ef_outer_spec (l : list sec) E s x ys : nth_error l 0 = Some s ->
  ef_outer calcT l E x 0 zeroY ys = Ret (ys ++ map (fun _ => zeroY) (take_upto (smax s) x), drop_upto (smax s) x).
Proof.
  intros Hs. revert ys. induction x as [|p t IH]; intros ys; cbn [ef_outer take_upto drop_upto]; [now rewrite app_nil_r|].
  assert (V : vget l 0 = Ret s) by (unfold vget; cbn [Z.ltb Z.compare Z.to_nat]; now rewrite Hs). rewrite V. cbn [bind].
  destruct (Rleb p (smax s)) eqn:L.
  - assert (I : forall f, ef_inner calcT (S f) l E s p 0 zeroY = Ret (Some (0%Z, zeroY))).
    { intros f. cbn [ef_inner]. apply Rleb_true in L. rewrite (proj2 (Rltb_false (smax s) p)) by lra. reflexivity. }
    rewrite I. cbn [bind]. rewrite cmul_zero, IH. cbn [map]. now rewrite <- app_assoc.
  - apply Rleb_false in L. rewrite ef_inner_past; auto; try (destruct l; [discriminate|cbn [length] in *; lia]).
    cbn [bind map]. now rewrite app_nil_r.
Qed.

(** sorting *)
Lemma rinsert_perm a x : Permutation (rinsert a x) (a :: x).
Proof. induction x as [|b t IH]; cbn; auto. destruct (Rleb a b); auto. rewrite IH. apply perm_swap. Qed.
Lemma rsort_perm x : Permutation (rsort x) x.
Proof. induction x as [|a t IH]; cbn; auto. rewrite rinsert_perm. now constructor. Qed.
Fixpoint ascending (x : list R) : Prop := match x with [] => True | a :: t => (forall b, In b t -> a <= b) /\ ascending t end.
Lemma rinsert_asc a x : ascending x -> ascending (rinsert a x).
Proof.
  induction x as [|b t IH]; cbn; [tauto|]. intros [H A]. destruct (Rleb a b) eqn:L; cbn.
  - apply Rleb_true in L. split; auto. intros c [<-|Hc]; auto. specialize (H c Hc). lra.
  - apply Rleb_false in L. split; [|auto]. intros c Hc. apply (Permutation_in _ (rinsert_perm a t)) in Hc. destruct Hc as [<-|Hc]; [lra|auto].
Qed.
Lemma rsort_asc x : ascending (rsort x).
Proof. induction x; cbn; auto. now apply rinsert_asc. Qed.
Lemma drop_below_filter c x : ascending x -> drop_below c x = filter (fun p => Rleb c p) x /\ ascending (drop_below c x).
Proof.
  induction x as [|a t IH]; cbn; auto. intros [H A]. destruct (Rltb a c) eqn:L.
  - apply Rltb_true in L. rewrite (proj2 (Rleb_false c a)) by lra. auto.
  - apply Rltb_false in L. rewrite (proj2 (Rleb_true c a)) by lra. split; [|split; auto]. f_equal.
    clear -H L. induction t as [|b t IHt]; cbn; auto. rewrite (proj2 (Rleb_true c b)) by (specialize (H b ltac:(cbn; auto)); lra). f_equal. apply IHt. intros; apply H; cbn; auto.
Qed.
Lemma take_upto_filter c x : ascending x -> take_upto c x = filter (fun p => Rleb p c) x.
Proof.
  induction x as [|a t IH]; cbn; auto. intros [H A]. destruct (Rleb a c) eqn:L; [f_equal; auto|].
  apply Rleb_false in L. clear -H L. induction t as [|b t IHt]; cbn; auto. rewrite (proj2 (Rleb_false b c)) by (specialize (H b ltac:(cbn; auto)); lra).
  apply IHt. intros; apply H; cbn; auto.
Qed.
Lemma filter_perm (f : R -> bool) x y : Permutation x y -> Permutation (filter f x) (filter f y).
Proof.
  induction 1; cbn; auto.
  - destruct (f x); auto.
  - destruct (f x), (f y); auto. apply perm_swap.
  - etransitivity; eauto.
Qed.
Lemma filter_filter (f g : R -> bool) x : filter f (filter g x) = filter (fun p => g p && f p) x.
Proof. induction x as [|a t IH]; cbn; auto. destruct (g a); cbn; [destruct (f a)|]; congruence. Qed.

(** What the function returns, for every list of points: one value for each requested point between xmin - 1e-12 and
    the end of the FIRST sector, and every value is zero. *)
Theorem C53_values (l : list sec) s0 lo hi E x : nth_error l 0 = Some s0 ->
  exists ys x', meigenfunction calcT l lo hi E x = Ret (ys, x') /\
    length ys = length (filter (fun p => Rleb (lo - 1 / 10 ^ 12) p && Rleb p (smax s0)) x) /\
    forall y, In y ys -> y = zeroY.
Proof.
  intros H0. unfold meigenfunction. rewrite (ef_outer_spec l E s0 _ [] H0). cbn [bind app].
  eexists. eexists. split; [reflexivity|]. split.
  - rewrite map_length. destruct (drop_below_filter (lo - 1 / 10 ^ 12) (rsort x) (rsort_asc x)) as [D A].
    rewrite (take_upto_filter _ _ A), D, filter_filter. apply Permutation_length, filter_perm, rsort_perm.
  - intros y Hy. apply in_map_iff in Hy as [_ [<- _]]. reflexivity.
Qed.
(** What is left of the caller's list of points.  It is sorted, and agrees with the returned values unless a requested point
    lies beyond the first sector and not beyond xmax + 1e-12: then all points above xmin - 1e-12 stay, also those beyond xmax. *)
Lemma firstn_take c x : firstn (length x - length (drop_upto c x)) x = take_upto c x.
Proof. rewrite (take_drop c x) at 1 3. rewrite app_length. replace (_ + _ - _)%nat with (length (take_upto c x)) by lia. rewrite firstn_app, firstn_all, Nat.sub_diag. cbn. apply app_nil_r. Qed.
Lemma drop_upto_asc c x : ascending x -> ascending (drop_upto c x) /\ forall p, In p (drop_upto c x) <-> In p x /\ c < p.
Proof.
  induction x as [|a t IH]; cbn; [intros _; split; [exact I|tauto]|]. intros [H A]. destruct (Rleb a c) eqn:L.
  - apply Rleb_true in L. destruct (IH A) as [I1 I2]. split; [exact I1|]. intro p. rewrite I2. split; [intros [? ?]; auto|]. intros [[Z|Hp] Q]; [subst; lra|tauto].
  - apply Rleb_false in L. split; [split; assumption|]. intro p. split; [|intros [? ?]; assumption]. intros [Z|Hp]; [subst; split; auto; lra|]. specialize (H p Hp). split; [auto|lra].
Qed.
Lemma drop_above_all c x : (forall p, In p x -> c < p) -> drop_above c x = [].
Proof. induction x as [|a t IH]; cbn; auto. intros H. rewrite (proj2 (Rltb_true c a)) by (apply H; auto). apply IH. intros; apply H; auto. Qed.
Lemma drop_above_none c x : ascending x -> (exists p, In p x /\ p <= c) -> drop_above c x = x.
Proof.
  destruct x as [|a t]; cbn; auto. intros [H A] (p & Hp & Q). rewrite (proj2 (Rltb_false c a)); auto. destruct Hp as [<-|Hp]; [lra|]. specialize (H p Hp). lra.
Qed.
Lemma asc_app x y : ascending x -> ascending y -> (forall p q, In p x -> In q y -> p <= q) -> ascending (x ++ y).
Proof.
  induction x as [|a t IH]; cbn; auto. intros [H A] B C. split; [intros b Hb; apply in_app_or in Hb as [Hb|Hb]; auto|]. apply IH; auto.
Qed.
Lemma take_upto_asc c x : ascending x -> ascending (take_upto c x) /\ forall p, In p (take_upto c x) -> p <= c.
Proof.
  induction x as [|a t IH]; cbn; [intros _; split; [exact I|tauto]|]. intros [H A]. destruct (Rleb a c) eqn:L; [|cbn; tauto]. apply Rleb_true in L. destruct (IH A) as [I1 I2]. cbn. split.
  - split; [|exact I1]. intros b Hb. apply H. rewrite (take_drop c t). apply in_or_app; auto.
  - intros p [<-|Hp]; auto.
Qed.
Theorem C53_points (l : list sec) s0 lo hi E x : nth_error l 0 = Some s0 ->
  exists ys x', meigenfunction calcT l lo hi E x = Ret (ys, x') /\ ascending x' /\
    ((exists p, In p x /\ lo - 1 / 10 ^ 12 <= p /\ smax s0 < p <= hi + 1 / 10 ^ 12) -> Permutation x' (filter (fun p => Rleb (lo - 1 / 10 ^ 12) p) x) /\ (length ys < length x')%nat) /\
    (~ (exists p, In p x /\ lo - 1 / 10 ^ 12 <= p /\ smax s0 < p <= hi + 1 / 10 ^ 12) -> Permutation x' (filter (fun p => Rleb (lo - 1 / 10 ^ 12) p && Rleb p (smax s0)) x) /\ length ys = length x').
Proof.
  intros H0. unfold meigenfunction. rewrite (ef_outer_spec l E s0 _ [] H0). cbn [bind app]. set (c := lo - 1 / 10 ^ 12). set (d := hi + 1 / 10 ^ 12). set (c0 := smax s0).
  destruct (drop_below_filter c (rsort x) (rsort_asc x)) as [D A]. set (k := drop_below c (rsort x)) in *. rewrite firstn_take.
  destruct (drop_upto_asc c0 k A) as [A1 I1]. destruct (take_upto_asc c0 k A) as [A2 I2].
  assert (forall p, In p k <-> In p x /\ c <= p) as Ik.
  { intro p. rewrite D, filter_In. rewrite Rleb_true. split; intros [Q1 Q2]; (split; [|exact Q2]); [apply (Permutation_in _ (rsort_perm x)), Q1|apply (Permutation_in _ (Permutation_sym (rsort_perm x))), Q1]. }
  eexists. eexists. split; [reflexivity|]. split; [|split].
  - apply asc_app; [exact A2| |].
    + clear -A1. induction (drop_upto c0 k) as [|a t IH]; cbn; auto. destruct (Rltb d a); [apply IH, A1|exact A1].
    + intros p q Hp Hq. specialize (I2 p Hp). assert (In q (drop_upto c0 k)) as Hq'. { clear -Hq. induction (drop_upto c0 k) as [|a t IH]; cbn in *; auto. destruct (Rltb d a); [right; apply IH, Hq|exact Hq]. } apply I1 in Hq' as [_ Hq']. lra.
  - intros (p & Hp & Q1 & Q2 & Q3). assert (In p (drop_upto c0 k)) as Hd by (apply I1; split; [apply Ik; auto|exact Q2]).
    rewrite drop_above_none; [|exact A1|exists p; auto]. split.
    + rewrite <- take_drop, D. apply filter_perm, rsort_perm.
    + rewrite map_length, app_length. destruct (drop_upto c0 k); [destruct Hd|cbn; lia].
  - intros N. rewrite drop_above_all, app_nil_r.
    + split; [rewrite (take_upto_filter _ _ A), D, filter_filter; apply filter_perm, rsort_perm|]. rewrite map_length. reflexivity.
    + intros p Hp. apply I1 in Hp as [Hp Q]. apply Ik in Hp as [Hp Q']. destruct (Rlt_le_dec d p); [assumption|exfalso]. apply N. exists p. auto.
Qed.
(** So the count is right when every requested point is in the domain and in the first sector. *)
Theorem C53_first_sector_partial (l : list sec) s0 lo hi E x : nth_error l 0 = Some s0 -> (forall p, In p x -> lo <= p <= smax s0) ->
  exists ys x', meigenfunction calcT l lo hi E x = Ret (ys, x') /\ length ys = length x.
Proof.
  intros H0 Hx. destruct (C53_values l s0 lo hi E x H0) as [ys [x' [M [L _]]]]. exists ys, x'. split; [auto|]. rewrite L. clear - Hx.
  induction x as [|p x IH]; cbn [filter length]; auto. pose proof (Hx p (or_introl eq_refl)).
  rewrite (proj2 (Rleb_true (lo - 1 / 10 ^ 12) p)), (proj2 (Rleb_true p (smax s0))) by lra. cbn [andb length]. f_equal. apply IH. intros; apply Hx; cbn; auto.
Qed.
(** And wrong for every list with a point of the domain beyond the first sector. *)
Theorem C53_refuted (l : list sec) s0 lo hi E x p : nth_error l 0 = Some s0 -> In p x -> smax s0 < p -> p <= hi ->
  exists ys x', meigenfunction calcT l lo hi E x = Ret (ys, x') /\ (length ys < length x)%nat.
Proof.
  intros H0 Hp Hs _. destruct (C53_values l s0 lo hi E x H0) as [ys [x' [M [L _]]]]. exists ys, x'. split; [auto|]. rewrite L. clear - Hp Hs.
  assert (G : forall f : R -> bool, (length (filter f x) <= length x)%nat /\ (f p = false -> length (filter f x) < length x)%nat).
  { intros f. induction x as [|q x IH]; cbn; [destruct Hp|]. destruct Hp as [->|Hp].
    - assert (G : (length (filter f x) <= length x)%nat) by (clear; induction x as [|c x IH]; cbn; auto; destruct (f c); cbn; lia).
      destruct (f p); cbn; split; try lia; congruence.
    - destruct (IH Hp) as [I1 I2]. destruct (f q); cbn; split; try lia; intros K; specialize (I2 K); lia. }
  apply G. rewrite (proj2 (Rleb_false p (smax s0))) by lra. apply andb_false_r.
Qed.
End C53.

(** ** Examples: the hypotheses are met *)
From mathcomp Require Import rat.
Definition ex_l : list (sector R unit) := [mkSector 0 1 Dfwd tt; mkSector 1 2 Dfwd tt].
Example ex_l_partition : partition 0 2 ex_l /\ forall s, In s ex_l -> smin s < smax s /\ sdir s = Dfwd.
Proof. split; [split; [discriminate|cbn; auto]|]. intros s [<-|[<-|[]]]; cbn; split; auto; lra. Qed.
Definition ex_T (_ : sector R unit) (_ _ : R) (_ : bool) : @CT rat_fieldType 1 := mkCT (scalar_mx (GRing.one rat_fieldType)) (const_mx (GRing.zero rat_fieldType)).
Example ex_two : GRing.add (GRing.one rat_fieldType) (GRing.one rat_fieldType) <> GRing.zero rat_fieldType.
Proof. discriminate. Qed.
(** C53: two points of the domain, one value *)
Example ex_C53 : exists ys x', meigenfunction ex_T ex_l 0 2 0 [1 / 2; 3 / 2] = Ret (ys, x') /\ length ys = 1%nat.
Proof.
  destruct (C53_values ex_T ex_l (mkSector 0 1 Dfwd tt) 0 2 0 [1 / 2; 3 / 2] eq_refl) as [ys [x' [H [L _]]]].
  exists ys, x'. split; [exact H|]. rewrite L. cbn [filter smax].
  assert (0 < 1 / 10 ^ 12) by (apply Rdiv_lt_0_compat; [lra|apply pow_lt; lra]).
  rewrite (proj2 (Rleb_true _ (1 / 2))), (proj2 (Rleb_true (1 / 2) 1)), (proj2 (Rleb_true _ (3 / 2))), (proj2 (Rleb_false (3 / 2) 1)) by lra. reflexivity.
Qed.
(** C52: with identity steps the columns stay regular, and the quotient theorem applies. *)
Example ex_cmul (y : @CY rat_fieldType 1 1) : cmul (ex_T (mkSector 0 1 Dfwd tt) 0 0 true) y = y.
Proof.
  destruct y as [y e]. unfold cmul, ex_T. cbn [ct cdt cy ce].
  change (const_mx (GRing.zero rat_fieldType)) with (GRing.zero (matrix_zmodType rat_fieldType (1 + 1) (1 + 1))).
  rewrite mul0mx, GRing.addr0. f_equal; apply mul1mx.
Qed.
Example ex_csprop a b (s : sector R unit) (y : @CY rat_fieldType 1 1) : In s ex_l -> a <= smin s -> csprop ex_T s 0 true a b y = y.
Proof.
  intros Hs Ha. assert (D : sdir s = Dfwd) by (apply ex_l_partition; auto).
  unfold csprop, cpropDelta. rewrite D. cbn [dir_eqb]. destruct (negb _); auto. cbv zeta.
  rewrite (proj2 (Rltb_false (smin s) a)) by lra. destruct (Rltb (smin s) b) eqn:B; auto. apply Rltb_true in B.
  rewrite (proj2 (Rleb_true 0 (b - smin s))) by lra. apply ex_cmul.
Qed.
Example ex_one : (const_mx (GRing.one rat_fieldType) : 'M_1) \in unitmx.
Proof.
  assert (K : (const_mx (GRing.one rat_fieldType) : 'M_1) = scalar_mx (GRing.one rat_fieldType)).
  { etransitivity; [apply mx11_scalar|]. f_equal. exact (mxE _ _ _ _). }
  rewrite K. apply unitmx1.
Qed.
Definition ex_y : @CY rat_fieldType 1 1 := mkCY (const_mx (GRing.one _)) (const_mx (GRing.zero _)).
Example ex_C52 : exists z : @CY rat_fieldType 1 1, mcolumn ex_T ex_l 0 2 0 ex_y 0 2 true = Ret z /\
   mpsi ex_T ex_l 0 (usubmx (cy ex_y) *m invmx (dsubmx (cy ex_y)))%R 0 2 = Ret (usubmx (cy z) *m invmx (dsubmx (cy z)))%R.
Proof.
  destruct ex_l_partition as [PT O].
  assert (D : dsubmx (cy ex_y) = const_mx (GRing.one _)) by (apply matrixP; intros i j; etransitivity; [exact (mxE _ _ _ _)|]; etransitivity; [exact (mxE _ _ _ _)|]; symmetry; exact (mxE _ _ _ _)).
  apply (C52_quotient_partial ex_T ex_l 0 2 PT); try lra; try (intros; apply O; auto).
  - intros s Hs. specialize (O s Hs). lra.
  - exists (mkSector 0 1 Dfwd tt). cbn. auto.
  - intros x z Hx H. unfold Rmin, Rmax in Hx. destruct (Rle_dec 0 2); [|lra].
    rewrite (C51_columns_inside ex_T ex_l 0 2 PT) in H; try lra. 2:{ intros s Hs; specialize (O s Hs); lra. }
    rewrite (proj2 (Rleb_true 0 x)) in H by lra. cbn [fold_left ex_l] in H.
    rewrite !ex_csprop in H; try (cbn; auto; lra). injection H as <-. rewrite D. apply ex_one.
Qed.

Print Assumptions C51_columns_reject.
Print Assumptions C51_columns_inside.
Print Assumptions C51_inside_partial.
Print Assumptions C51_refuted.
Print Assumptions C51_target_refuted.
Print Assumptions C51_same_solution.
Print Assumptions C52_columns.
Print Assumptions C52_quotient_partial.
Print Assumptions C52_step_ignores_direction.
Print Assumptions C52_refuted.
Print Assumptions C53_values.
Print Assumptions C53_points.
Print Assumptions C53_first_sector_partial.
Print Assumptions C53_refuted.
