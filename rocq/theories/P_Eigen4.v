(** Gluing, non-vanishing. *)
From Coq Require Import String ZArith Reals List Bool Lia Lra.
From Coquelicot Require Import Coquelicot.
From Verif Require Import Base M_Sectors S_Sectors P_Lookup M_Core S_Core S_Eigen P_Prufer P_Core P_Core2 M_Eigen P_Eigen P_Eigen2 P_Eigen3.
Import ListNotations.
Open Scope R_scope.

Lemma cont_ext f g a b : (forall x, a <= x <= b -> f x = g x) -> cont_on f a b -> cont_on g a b.
Proof.
  intros E C x Hx eps He. destruct (C x Hx eps He) as (d & Hd & K). exists d. split; auto. intros t Ht Td.
  rewrite <- !E by auto. auto.
Qed.
Lemma cont_scal f c a b : cont_on f a b -> cont_on (fun x => f x * c) a b.
Proof.
  intros C x Hx eps He. destruct (C x Hx (eps / (Rabs c + 1))) as (d & Hd & K).
  { pose proof (Rabs_pos c). apply Rdiv_lt_0_compat; lra. }
  exists d. split; auto. intros t Ht Td. specialize (K t Ht Td).
  replace (f t * c - f x * c) with ((f t - f x) * c) by ring. rewrite Rabs_mult. pose proof (Rabs_pos c). pose proof (Rabs_pos (f t - f x)).
  apply Rle_lt_trans with (Rabs (f t - f x) * (Rabs c + 1)); [nra|].
  apply Rmult_lt_compat_r with (r := Rabs c + 1) in K; [|lra]. unfold Rdiv in K. rewrite Rmult_assoc, Rinv_l in K by lra. lra.
Qed.
Lemma cont_glue f a b c : a <= b <= c -> cont_on f a b -> cont_on f b c -> cont_on f a c.
Proof.
  intros O C1 C2 x Hx eps He. destruct (Rtotal_order x b) as [L|[->|L]].
  - destruct (C1 x ltac:(lra) eps He) as (d & Hd & K). exists (Rmin d (b - x)). split; [apply Rmin_pos; lra|].
    intros t Ht Td. pose proof (Rmin_l d (b - x)). pose proof (Rmin_r d (b - x)). apply K; [|lra]. apply Rabs_def2 in Td. lra.
  - destruct (C1 b ltac:(lra) eps He) as (d & Hd & K). destruct (C2 b ltac:(lra) eps He) as (d' & Hd' & K').
    exists (Rmin d d'). split; [apply Rmin_pos; lra|]. intros t Ht Td. pose proof (Rmin_l d d'). pose proof (Rmin_r d d').
    destruct (Rle_dec t b); [apply K|apply K']; lra.
  - destruct (C2 x ltac:(lra) eps He) as (d & Hd & K). exists (Rmin d (x - b)). split; [apply Rmin_pos; lra|].
    intros t Ht Td. pose proof (Rmin_l d (x - b)). pose proof (Rmin_r d (x - b)). apply K; [|lra]. apply Rabs_def2 in Td. lra.
Qed.

Section S.
Variable calcT : sec -> R -> R -> bool -> Tm.
Variable vm : R.
Variables (l : list sec) (lo hi E : R).
Lemma fold_nonzero (f : sec -> R) (g : sec -> R) ss y : (forall s d, In s ss -> det (calcT s E d true) <> 0) -> nonzero y ->
  nonzero (fold_left (fun y s => sprop_y calcT vm s E y (f s) (g s) true) ss y).
Proof.
  revert y. induction ss as [|s ss IH]; intros y D N; cbn [fold_left]; [exact N|]. apply IH; [intros; apply D; cbn; auto|].
  eapply steps_nonzero; [|apply sprop_steps|exact N]. intros; apply D; cbn; auto.
Qed.
Lemma firstn_In {A} n (x : A) k : In x (firstn n k) -> In x k.
Proof. intros H. rewrite <- (firstn_skipn n k). apply in_or_app; auto. Qed.
Lemma skipn_In {A} n (x : A) k : In x (skipn n k) -> In x k.
Proof. intros H. rewrite <- (firstn_skipn n k). apply in_or_app; auto. Qed.
Lemma Lf_nonzero left i : (forall s d, In s l -> det (calcT s E d true) <> 0) -> nonzero left -> nonzero (Lf calcT vm l E left i).
Proof. intros D N. apply fold_nonzero; auto. intros s d Hs. apply D. eapply firstn_In; eauto. Qed.
Lemma Rf_nonzero right i : (forall s d, In s l -> det (calcT s E d true) <> 0) -> nonzero right -> nonzero (Rf calcT vm l E right i).
Proof. intros D N. apply fold_nonzero; auto. intros s d Hs. apply D. apply in_rev in Hs. eapply skipn_In; eauto. Qed.
End S.

(** Exact step matrices give exact sector propagators, in both directions. *)
Lemma tmul_Tid y : tmul Tid y = y.
Proof. destruct y. unfold tmul, Tid; cbn. f_equal; ring. Qed.
Lemma is_derive_multc (f : R -> R) x d c : is_derive f x d -> is_derive (fun t => f t * c) x (d * c).
Proof. intros H. evar_last. apply is_derive_multR; [exact H|apply @is_derive_const]. cbn. unfold zero; cbn. ring. Qed.
Lemma is_derive_shift (f : R -> R) a x d : is_derive f (x - a) d -> is_derive (fun t => f (t - a)) x d.
Proof.
  intros H. evar_last. apply (is_derive_comp f (fun t => t - a)); [exact H|].
  - apply is_derive_minusR; [apply @is_derive_id|apply @is_derive_const].
  - unfold scal, zero, one; cbn. unfold mult; cbn. ring.
Qed.
Lemma is_derive_mirror (f : R -> R) a x d : is_derive f (a - x) d -> is_derive (fun t => f (a - t)) x (- d).
Proof.
  intros H. evar_last. apply (is_derive_comp f (fun t => a - t)); [exact H|].
  - apply is_derive_minusR; [apply @is_derive_const|apply @is_derive_id].
  - unfold scal, zero, one; cbn. unfold mult; cbn. ring.
Qed.
Lemma tmul_solves (t : R -> Tm) w E d z : T_solves_at t w E d -> solves_at (fun x => tmul (t x) z) w E d.
Proof.
  intros (A & B & C & D & A' & B' & C' & D'). unfold solves_at, tmul; cbn [y0 y1 e0 e1].
  refine (conj _ (conj _ (conj _ _))).
  - evar_last. { apply is_derive_plusR; apply is_derive_multc; eassumption. } cbn; ring.
  - evar_last. { apply is_derive_plusR; apply is_derive_multc; eassumption. } cbn; ring.
  - evar_last. { apply is_derive_plusR; apply is_derive_plusR; apply is_derive_multc; eassumption. } cbn; ring.
  - evar_last. { apply is_derive_plusR; apply is_derive_plusR; apply is_derive_multc; eassumption. } cbn; ring.
Qed.
Lemma shift_solves U w E a x : solves_at U w E (x - a) -> solves_at (fun t => U (t - a)) (fun t => w (t - a)) E x.
Proof.
  intros (A & B & C & D). unfold solves_at. refine (conj _ (conj _ (conj _ _)));
    [apply (is_derive_shift (fun t => y0 (U t)))|apply (is_derive_shift (fun t => y1 (U t)))|apply (is_derive_shift (fun t => e0 (U t)))|apply (is_derive_shift (fun t => e1 (U t)))]; assumption.
Qed.
Lemma mirror_solves U w E a x : solves_at U w E (a - x) -> solves_at (fun t => reverse (U (a - t))) (fun t => w (a - t)) E x.
Proof.
  intros (A & B & C & D). unfold solves_at, reverse; cbn [y0 y1 e0 e1]. refine (conj _ (conj _ (conj _ _))).
  - evar_last. apply (is_derive_mirror (fun t => y0 (U t))); eassumption. ring.
  - evar_last. apply is_derive_multc. apply (is_derive_mirror (fun t => y1 (U t))); eassumption. cbn; ring.
  - evar_last. apply (is_derive_mirror (fun t => e0 (U t))); eassumption. ring.
  - evar_last. apply is_derive_multc. apply (is_derive_mirror (fun t => e1 (U t))); eassumption. cbn; ring.
Qed.
Lemma solves_ext U v w E x : v x = w x -> solves_at U v E x -> solves_at U w E x.
Proof. intros K. unfold solves_at. rewrite K. auto. Qed.

Section ExactT.
Variable calcT : sec -> R -> R -> bool -> Tm.
Variable vm : R.
Lemma exact_of_T s E v (t : R -> Tm) : smin s < smax s -> directed s -> t 0 = Tid ->
  (forall d, 0 <= d <= sh s -> t d = calcT s E d true) ->
  (forall d, 0 <= d <= sh s -> det (t d) = 1 /\ ddet (t d) = 0) ->
  (forall d, 0 <= d <= sh s -> T_solves_at t (fun d => match sdir s with Dfwd => v (smin s + d) | _ => v (smax s - d) end) E d) ->
  exact_propagator (fun y a b => sprop_y calcT vm s E y a b true) v E (smin s) (smax s).
Proof.
  intros O Dd T0 TE TD TS y c Hc.
  assert (Rg : regular calcT s E true). { intros d Hd. rewrite <- TE by auto. auto. }
  assert (PK : forall x, sprop_y calcT vm s E y c x true = kap calcT s E true x (kapi calcT s E true c y)).
  { intros x. apply yprop_kap; auto. }
  assert (Cl : forall d, 0 <= d <= sh s -> clip (sh s) d = d). { intros d Hd. unfold clip. destruct (Rltb (sh s) d) eqn:L; auto. apply Rltb_true in L. lra. }
  set (z := kapi calcT s E true c y) in *.
  assert (Hh : sh s = smax s - smin s) by reflexivity.
  destruct Dd as [Ed|Ed]; rewrite Ed in TS.
  - exists (fun x => tmul (t (x - smin s)) z).
    assert (KU : forall x, smin s <= x <= smax s -> kap calcT s E true x z = tmul (t (x - smin s)) z).
    { intros x Hx. unfold kap. rewrite Ed. destruct (Rltb (smin s) x) eqn:L; [apply Rltb_true in L|apply Rltb_false in L].
      - rewrite Cl by lra. rewrite TE by lra. reflexivity.
      - replace (x - smin s) with 0 by lra. rewrite T0, tmul_Tid. reflexivity. }
    split.
    + rewrite <- KU by lra. unfold z. apply (kap_inv calcT s E true c y); auto; lra.
    + intros x Hx. split; [|rewrite PK; auto].
      apply (solves_ext _ (fun x => v (smin s + (x - smin s)))); [f_equal; ring|].
      apply (shift_solves (fun d => tmul (t d) z) (fun d => v (smin s + d))). apply tmul_solves. apply TS. lra.
  - exists (fun x => reverse (tmul (t (smax s - x)) (reverse z))).
    assert (KU : forall x, smin s <= x <= smax s -> kap calcT s E true x z = reverse (tmul (t (smax s - x)) (reverse z))).
    { intros x Hx. unfold kap. rewrite Ed. destruct (Rltb x (smax s)) eqn:L; [apply Rltb_true in L|apply Rltb_false in L].
      - rewrite Cl by lra. rewrite TE by lra. reflexivity.
      - replace (smax s - x) with 0 by lra. rewrite T0, tmul_Tid, reverse_reverse. reflexivity. }
    split.
    + rewrite <- KU by lra. unfold z. apply (kap_inv calcT s E true c y); auto; lra.
    + intros x Hx. split; [|rewrite PK; auto].
      apply (solves_ext _ (fun x => v (smax s - (smax s - x)))); [f_equal; ring|].
      apply (mirror_solves (fun d => tmul (t d) (reverse z)) (fun d => v (smax s - d))). apply tmul_solves. apply TS. lra.
Qed.
End ExactT.
Lemma Forall2_impl {A B} (P Q : A -> B -> Prop) xs ys : (forall x y, P x y -> Q x y) -> Forall2 P xs ys -> Forall2 Q xs ys.
Proof. intros K. induction 1; constructor; auto. Qed.
Lemma Forall2_impl_in {A B} (P Q : A -> B -> Prop) xs ys : (forall x y, In x xs -> P x y -> Q x y) -> Forall2 P xs ys -> Forall2 Q xs ys.
Proof. intros K F. induction F; constructor; [apply K; cbn; auto|]. apply IHF. intros; apply K; cbn; auto. Qed.
Lemma derive_cont (f : R -> R) x : ex_derive f x -> forall eps, 0 < eps -> exists d, 0 < d /\ forall t, Rabs (t - x) < d -> Rabs (f t - f x) < eps.
Proof.
  intros Dg eps He. pose proof (ex_derive_continuous f x Dg) as Cg. pose proof (proj1 (filterlim_locally (F := locally x) f (f x)) Cg (mkposreal _ He)) as [d Hd].
  exists d. split; [apply cond_pos|]. intros t Ht. exact (Hd t Ht).
Qed.
Lemma exact_cont prop v E a b : exact_propagator prop v E a b -> forall y c, a <= c <= b ->
  cont_on (fun x => y0 (prop y c x)) a b /\ cont_on (fun x => y1 (prop y c x)) a b.
Proof.
  intros EX y c Hc. destruct (EX y c Hc) as (U & _ & K). split; intros x Hx eps He; destruct (K x Hx) as [(D0 & D1 & _) P].
  - destruct (derive_cont (fun t => y0 (U t)) x (ex_intro _ _ D0) eps He) as (d & Hd & Q). exists d. split; auto. intros t Ht Td.
    rewrite P. rewrite (proj2 (K t Ht)). auto.
  - destruct (derive_cont (fun t => y1 (U t)) x (ex_intro _ _ D1) eps He) as (d & Hd & Q). exists d. split; auto. intros t Ht Td.
    rewrite P. rewrite (proj2 (K t Ht)). auto.
Qed.
