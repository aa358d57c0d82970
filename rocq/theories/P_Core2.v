(** Invariants of propagation: angles, invertibility, scaling, mirror images. *)
From Coq Require Import String Reals ZArith QArith List Lra Lia Psatz Bool.
From Coquelicot Require Import Coquelicot.
From Verif Require Import Base M_Sectors M_LegendreData M_Legendre M_Core S_Sectors S_Core S_Poly P_Lookup P_Poly P_Prufer P_Core.
Import ListNotations.
Open Scope R_scope.

Lemma skipn_skipn {A} x y (l : list A) : skipn x (skipn y l) = skipn (x + y) l.
Proof.
  revert x l; induction y as [|y IH]; intros x l; [rewrite Nat.add_0_r; reflexivity|]. rewrite Nat.add_succ_r. destruct l; cbn [skipn]; [destruct x; reflexivity|apply IH].
Qed.
Section Props2.
Variable calcT : sec -> R -> R -> bool -> Tm.
Variable vm : R.
Notation propagateDelta := (propagateDelta calcT vm).
Notation sprop := (sprop calcT vm).
Notation propagate := (propagate calcT vm).
Notation ydelta := (ydelta calcT vm).
Notation tdelta := (tdelta calcT vm).
Notation yprop := (yprop calcT vm).
Notation tprop := (tprop calcT vm).
Notation run := (run calcT vm).
Notation run1 := (run1 calcT vm).

Definition runY (ss : list sec) (E a b : R) (u : bool) (y : Y) : Y := fold_left (fun y s => yprop s E a b u y) ss y.
Lemma run_fst ss E a b u st : fst (run ss E a b u st) = runY ss E a b u (fst st).
Proof. revert st. induction ss as [|s ss IH]; intros st; [reflexivity|]. unfold P_Core.run, runY in *. cbn [fold_left]. rewrite IH. reflexivity. Qed.
Lemma runY_app s1 s2 E a b u y : runY (s1 ++ s2) E a b u y = runY s2 E a b u (runY s1 E a b u y).
Proof. apply fold_left_app. Qed.
Lemma runY_linear ss E a b u : linearY (runY ss E a b u).
Proof.
  induction ss as [|s ss IH]; [apply linear_id|].
  change (linearY (fun y => runY ss E a b u (yprop s E a b u y))). apply (linear_comp _ _ IH). apply yprop_linear.
Qed.

(** A linear map sends 0 to 0 on all components; on the (y,y') part alone: *)
Lemma yzero_tmul t y : yzero y -> yzero (tmul t y).
Proof. intros [A B]. unfold yzero, tmul; cbn [y0 y1]. rewrite A, B. split; ring. Qed.
Lemma yzero_reverse y : yzero y -> yzero (reverse y).
Proof. intros [A B]. unfold yzero, reverse; cbn [y0 y1]. rewrite A, B. split; ring. Qed.
Lemma yzero_ydelta s E u d y : yzero y -> yzero (ydelta s E u d y).
Proof.
  intros H. unfold P_Core.ydelta, M_Core.propagateDelta; cbn [fst].
  destruct (dir_eqb (sdir s) Dbwd); [apply yzero_reverse|]; (destruct (Rleb 0 _); [|unfold tdiv]); apply yzero_tmul; auto; apply yzero_reverse; auto.
Qed.

(** The converse when the step matrix is regular. *)
Lemma nonzero_tmul t y : det t <> 0 -> nonzero y -> nonzero (tmul t y).
Proof.
  intros D H. destruct (nonzero_dec (tmul t y)) as [K|[K1 K2]]; auto. exfalso.
  pose proof (tdiv_tmul t y) as Z. pose proof (yzero_tmul (mkT (t11 t) (- t01 t) (- t10 t) (t00 t) (d11 t) (- d01 t) (- d10 t) (d00 t)) (tmul t y) (conj K1 K2)) as [Q1 Q2].
  change (y0 (tdiv t (tmul t y)) = 0) in Q1. change (y1 (tdiv t (tmul t y)) = 0) in Q2.
  rewrite Z in Q1, Q2. cbn [y0 y1] in *. apply Rmult_integral in Q1, Q2. destruct H; lra.
Qed.
Lemma det_inv t : det (mkT (t11 t) (- t01 t) (- t10 t) (t00 t) (d11 t) (- d01 t) (- d10 t) (d00 t)) = det t.
Proof. unfold det; cbn. ring. Qed.
Lemma nonzero_reverse y : nonzero y -> nonzero (reverse y).
Proof. unfold nonzero, reverse; cbn [y0 y1]. intros [H|H]; [left|right]; lra. Qed.
Lemma nonzero_ydelta s E u d y : (forall x, det (calcT s E x u) <> 0) -> nonzero y -> nonzero (ydelta s E u d y).
Proof.
  intros D H. unfold P_Core.ydelta, M_Core.propagateDelta; cbn [fst].
  destruct (dir_eqb (sdir s) Dbwd); [apply nonzero_reverse|]; (destruct (Rleb 0 _); [|unfold tdiv]); apply nonzero_tmul; auto; try (rewrite det_inv; auto); apply nonzero_reverse; auto.
Qed.

Lemma ydelta_angle s E u d y th : is_angle (scaling vm E) th y -> is_angle (scaling vm E) (th + tdelta s E u d y) (ydelta s E u d y).
Proof.
  intros H. destruct (nonzero_dec y) as [N|N].
  2:{ apply (yzero_ydelta s E u d) in N. destruct N as [A B]. unfold is_angle. rewrite A, B. ring. }
  unfold P_Core.ydelta, P_Core.tdelta, M_Core.propagateDelta; cbn [fst snd]. rewrite Rplus_0_l.
  destruct (negb _); [apply prufer_step; auto|].
  match goal with |- is_angle _ (th + - prufer vm s E ?d' ?y' y) _ => apply (prufer_step_back vm s E d' y' y th) end; auto.
Qed.
Lemma steps_angle s E u y y' d th : steps calcT vm s E u y y' d -> is_angle (scaling vm E) th y -> is_angle (scaling vm E) (th + d) y'.
Proof.
  induction 1; intros A; [rewrite Rplus_0_r; auto|]. rewrite <- Rplus_assoc. apply ydelta_angle; auto.
Qed.
Lemma run_angle ss E a b u st : is_angle (scaling vm E) (snd st) (fst st) ->
  is_angle (scaling vm E) (snd (run ss E a b u st)) (fst (run ss E a b u st)).
Proof.
  revert st. induction ss as [|s ss IH]; intros st H; [exact H|]. unfold P_Core.run in *. cbn [fold_left]. apply IH.
  unfold P_Core.run1; cbn [fst snd]. eapply steps_angle; [apply sprop_steps|auto].
Qed.
Lemma start_angle s E a b y : is_angle (scaling vm E) (theta_start vm s E a b y) y.
Proof.
  unfold theta_start. destruct (_ || _).
  - replace (theta0 vm s E y + PI) with (theta0 vm s E y + IZR 1 * PI) by ring. apply is_angle_shift. apply theta0_angle.
  - apply theta0_angle.
Qed.
Lemma steps_nonzero s E u y y' d : (forall x, det (calcT s E x u) <> 0) -> steps calcT vm s E u y y' d -> nonzero y -> nonzero y'.
Proof. intros D. induction 1; auto. intros. apply nonzero_ydelta; auto. Qed.
Lemma runY_nonzero ss E a b u y : (forall s x, In s ss -> det (calcT s E x u) <> 0) -> nonzero y -> nonzero (runY ss E a b u y).
Proof.
  revert y. induction ss as [|s ss IH]; intros y D H; [exact H|]. unfold runY in *. cbn [fold_left]. apply IH.
  - intros; apply D; cbn; auto.
  - eapply steps_nonzero; [|apply sprop_steps|exact H]. intros; apply D; cbn; auto.
Qed.

(** C12 *)
Lemma ydelta_deriv s u d y E : (forall x, T_deriv (fun E => calcT s E x u) E) -> Y_deriv y E -> Y_deriv (fun x => ydelta s x u d (y x)) E.
Proof.
  intros D H. unfold P_Core.ydelta, M_Core.propagateDelta; cbn [fst].
  destruct (dir_eqb (sdir s) Dbwd).
  - destruct (Rleb 0 _); apply deriv_reverse; [apply (deriv_tmul (fun x => calcT s x _ u) (fun x => reverse (y x)))|apply (deriv_tdiv (fun x => calcT s x _ u) (fun x => reverse (y x)))]; auto; apply deriv_reverse; auto.
  - destruct (Rleb 0 _); [apply (deriv_tmul (fun x => calcT s x _ u) y)|apply (deriv_tdiv (fun x => calcT s x _ u) y)]; auto.
Qed.
Lemma yprop_deriv s a b u y E : (forall x, T_deriv (fun E => calcT s E x u) E) -> Y_deriv y E -> Y_deriv (fun x => yprop s x a b u (y x)) E.
Proof.
  intros D H. unfold P_Core.yprop, M_Core.sprop. cbv zeta. destruct (negb _); [|exact H].
  destruct (dir_eqb (sdir s) Dfwd).
  - assert (H1 : Y_deriv (fun x => fst (if Rltb (smin s) a then propagateDelta s x u (smin s - a) (y x, 0) else (y x, 0))) E).
    { destruct (Rltb (smin s) a); [apply ydelta_deriv; auto|exact H]. }
    destruct (Rltb (smin s) b); [|exact H1].
    eapply (ydelta_deriv s u (b - smin s)) in H1; auto. revert H1. destruct (Rltb (smin s) a); intros H1; [|exact H1].
    unfold Y_deriv in *. unfold P_Core.ydelta in *. 
    assert (X : forall x, fst (propagateDelta s x u (b - smin s) (propagateDelta s x u (smin s - a) (y x, 0))) = fst (propagateDelta s x u (b - smin s) (fst (propagateDelta s x u (smin s - a) (y x, 0)), 0))).
    { intros x. rewrite (pdelta_split calcT vm s x u (smin s - a)). rewrite pdelta_split. reflexivity. }
    rewrite !X. destruct H1 as [P Q]. split; (eapply is_derive_ext; [|eassumption]); intros; cbn beta; rewrite X; reflexivity.
  - assert (H1 : Y_deriv (fun x => fst (if Rltb a (smax s) then propagateDelta s x u (smax s - a) (y x, 0) else (y x, 0))) E).
    { destruct (Rltb a (smax s)); [apply ydelta_deriv; auto|exact H]. }
    destruct (Rltb b (smax s)); [|exact H1].
    eapply (ydelta_deriv s u (b - smax s)) in H1; auto. revert H1. destruct (Rltb a (smax s)); intros H1; [|exact H1].
    unfold Y_deriv in *. unfold P_Core.ydelta in *. 
    assert (X : forall x, fst (propagateDelta s x u (b - smax s) (propagateDelta s x u (smax s - a) (y x, 0))) = fst (propagateDelta s x u (b - smax s) (fst (propagateDelta s x u (smax s - a) (y x, 0)), 0))).
    { intros x. rewrite (pdelta_split calcT vm s x u (smax s - a)). rewrite pdelta_split. reflexivity. }
    rewrite !X. destruct H1 as [P Q]. split; (eapply is_derive_ext; [|eassumption]); intros; cbn beta; rewrite X; reflexivity.
Qed.
Lemma runY_deriv ss a b u y E : (forall s x, In s ss -> T_deriv (fun E => calcT s E x u) E) -> Y_deriv y E -> Y_deriv (fun x => runY ss x a b u (y x)) E.
Proof.
  revert y. induction ss as [|s ss IH]; intros y D H; [exact H|].
  apply (IH (fun x => yprop s x a b u (y x))); [intros; apply D; cbn; auto|].
  apply yprop_deriv; auto. intros; apply D; cbn; auto.
Qed.

(** ** C13: invertibility and composition *)
Definition regular (s : sec) (E : R) (u : bool) : Prop := forall d, 0 <= d <= sh s -> det (calcT s E d u) = 1 /\ ddet (calcT s E d u) = 0.
Definition clip (h d : R) : R := if Rltb h d then h else d.
Lemma clip_range h d : 0 <= h -> 0 <= d -> 0 <= clip h d <= h.
Proof. unfold clip. intros. destruct (Rltb h d) eqn:E; [apply Rltb_true in E|apply Rltb_false in E]; lra. Qed.

Lemma tdiv_tmul1 t y : det t = 1 -> ddet t = 0 -> tdiv t (tmul t y) = y.
Proof. intros A B. rewrite tdiv_tmul, A, B. apply yid. Qed.
Lemma tmul_tdiv1 t y : det t = 1 -> ddet t = 0 -> tmul t (tdiv t y) = y.
Proof. intros A B. rewrite tmul_tdiv, A, B. apply yid. Qed.

(** Fundamental map of a sector measured from its stored end. *)
Definition kap (s : sec) (E : R) (u : bool) (x : R) (y : Y) : Y :=
  match sdir s with
  | Dfwd => if Rltb (smin s) x then tmul (calcT s E (clip (sh s) (x - smin s)) u) y else y
  | _ => if Rltb x (smax s) then reverse (tmul (calcT s E (clip (sh s) (smax s - x)) u) (reverse y)) else y
  end.
Definition kapi (s : sec) (E : R) (u : bool) (x : R) (y : Y) : Y :=
  match sdir s with
  | Dfwd => if Rltb (smin s) x then tdiv (calcT s E (clip (sh s) (x - smin s)) u) y else y
  | _ => if Rltb x (smax s) then reverse (tdiv (calcT s E (clip (sh s) (smax s - x)) u) (reverse y)) else y
  end.
Lemma kap_inv s E u x y : regular s E u -> smin s <= smax s -> kapi s E u x (kap s E u x y) = y /\ kap s E u x (kapi s E u x y) = y.
Proof.
  intros Rg Ho. unfold kap, kapi.
  assert (G : forall d, 0 <= d -> det (calcT s E (clip (sh s) d) u) = 1 /\ ddet (calcT s E (clip (sh s) d) u) = 0).
  { intros. apply Rg. apply clip_range; auto. unfold sh. lra. }
  destruct (sdir s).
  - destruct (Rltb x (smax s)) eqn:L; [apply Rltb_true in L|auto]. destruct (G (smax s - x)) as [A B]; [lra|].
    rewrite !reverse_reverse, tdiv_tmul1, tmul_tdiv1 by auto. rewrite !reverse_reverse. auto.
  - destruct (Rltb (smin s) x) eqn:L; [apply Rltb_true in L|auto]. destruct (G (x - smin s)) as [A B]; [lra|].
    rewrite tdiv_tmul1, tmul_tdiv1 by auto. auto.
  - destruct (Rltb x (smax s)) eqn:L; [apply Rltb_true in L|auto]. destruct (G (smax s - x)) as [A B]; [lra|].
    rewrite !reverse_reverse, tdiv_tmul1, tmul_tdiv1 by auto. rewrite !reverse_reverse. auto.
Qed.
Lemma yprop_noop s E a b u y : (smax s <= a /\ smax s <= b) \/ (a <= smin s /\ b <= smin s) -> sprop s E y a b u = (y, 0).
Proof.
  intros H. unfold M_Core.sprop. cbv zeta.
  assert (G : (Rleb (smax s) a && Rleb (smax s) b) || (Rleb a (smin s) && Rleb b (smin s)) = true).
  { apply orb_true_iff. rewrite !andb_true_iff, !Rleb_true. tauto. }
  rewrite G. reflexivity.
Qed.
Lemma yprop_kap s E a b u y : regular s E u -> smin s < smax s -> directed s ->
  yprop s E a b u y = kap s E u b (kapi s E u a y).
Proof.
  intros Rg Ho Dd. unfold P_Core.yprop, M_Core.sprop. cbv zeta.
  assert (IV := kap_inv s E u).
  assert (K1 : forall x x', smax s <= x -> smax s <= x' -> forall y, kap s E u x y = kap s E u x' y).
  { intros x x' Hx Hx' z. unfold kap, clip, sh. destruct Dd as [-> | ->].
    - destruct (Rltb (smin s) x) eqn:L1; [|apply Rltb_false in L1; lra]. destruct (Rltb (smin s) x') eqn:L2; [|apply Rltb_false in L2; lra].
      assert (forall x, smax s <= x -> (if Rltb (smax s - smin s) (x - smin s) then smax s - smin s else x - smin s) = smax s - smin s) as C.
      { intros w Hw. destruct (Rltb (smax s - smin s) (w - smin s)) eqn:L; auto. apply Rltb_false in L. lra. }
      rewrite !C by auto. reflexivity.
    - destruct (Rltb x (smax s)) eqn:L1; [apply Rltb_true in L1; lra|]. destruct (Rltb x' (smax s)) eqn:L2; [apply Rltb_true in L2; lra|]. reflexivity. }
  assert (K2 : forall x x', x <= smin s -> x' <= smin s -> forall y, kap s E u x y = kap s E u x' y).
  { intros x x' Hx Hx' z. unfold kap, clip, sh. destruct Dd as [-> | ->].
    - destruct (Rltb (smin s) x) eqn:L1; [apply Rltb_true in L1; lra|]. destruct (Rltb (smin s) x') eqn:L2; [apply Rltb_true in L2; lra|]. reflexivity.
    - destruct (Rltb x (smax s)) eqn:L1; [|apply Rltb_false in L1; lra]. destruct (Rltb x' (smax s)) eqn:L2; [|apply Rltb_false in L2; lra].
      assert (forall x, x <= smin s -> (if Rltb (smax s - smin s) (smax s - x) then smax s - smin s else smax s - x) = smax s - smin s) as C.
      { intros w Hw. destruct (Rltb (smax s - smin s) (smax s - w)) eqn:L; auto. apply Rltb_false in L. lra. }
      rewrite !C by auto. reflexivity. }
  destruct (negb _) eqn:NG; cbn [fst].
  2:{ apply negb_false_iff, orb_true_iff in NG. rewrite !andb_true_iff, !Rleb_true in NG.
      destruct NG as [[A B]|[A B]].
      - rewrite (K1 b a) by auto. symmetry. apply (IV a y); auto; lra.
      - rewrite (K2 b a) by auto. symmetry. apply (IV a y); auto; lra. }
  unfold kap, kapi. destruct Dd as [Ed | Ed]; rewrite Ed; cbn [dir_eqb].
  - destruct (Rltb (smin s) a) eqn:La; [apply Rltb_true in La; rewrite pdelta_split|];
    (destruct (Rltb (smin s) b) eqn:Lb; [apply Rltb_true in Lb; rewrite pdelta_split|]); cbn [fst];
    unfold P_Core.ydelta, M_Core.propagateDelta; rewrite ?Ed; cbn [dir_eqb fst]; fold (clip (sh s)).
    + destruct (Rleb 0 (smin s - a)) eqn:Q1; [apply Rleb_true in Q1; lra|]. destruct (Rleb 0 (b - smin s)) eqn:Q2; [|apply Rleb_false in Q2; lra].
      unfold clip. rewrite Ropp_minus_distr. reflexivity.
    + destruct (Rleb 0 (smin s - a)) eqn:Q1; [apply Rleb_true in Q1; lra|]. unfold clip. rewrite Ropp_minus_distr. reflexivity.
    + destruct (Rleb 0 (b - smin s)) eqn:Q2; [|apply Rleb_false in Q2; lra]. reflexivity.
    + reflexivity.
  - destruct (Rltb a (smax s)) eqn:La; [apply Rltb_true in La; rewrite pdelta_split|];
    (destruct (Rltb b (smax s)) eqn:Lb; [apply Rltb_true in Lb; rewrite pdelta_split|]); cbn [fst];
    unfold P_Core.ydelta, M_Core.propagateDelta; rewrite ?Ed; cbn [dir_eqb fst]; fold (clip (sh s)).
    + destruct (Rleb 0 ((smax s - a) * -1)) eqn:Q1; [apply Rleb_true in Q1; lra|]. destruct (Rleb 0 ((b - smax s) * -1)) eqn:Q2; [|apply Rleb_false in Q2; lra].
      unfold clip. replace (- ((smax s - a) * -1)) with (smax s - a) by ring. replace ((b - smax s) * -1) with (smax s - b) by ring. reflexivity.
    + destruct (Rleb 0 ((smax s - a) * -1)) eqn:Q1; [apply Rleb_true in Q1; lra|]. unfold clip. replace (- ((smax s - a) * -1)) with (smax s - a) by ring. reflexivity.
    + destruct (Rleb 0 ((b - smax s) * -1)) eqn:Q2; [|apply Rleb_false in Q2; lra]. unfold clip. replace ((b - smax s) * -1) with (smax s - b) by ring. reflexivity.
    + reflexivity.
Qed.
Lemma yprop_compose s E a b c u y : regular s E u -> smin s < smax s -> directed s ->
  yprop s E b c u (yprop s E a b u y) = yprop s E a c u y.
Proof.
  intros. rewrite !yprop_kap by auto. rewrite (proj1 (kap_inv s E u b _ H ltac:(lra))). reflexivity.
Qed.
Lemma yprop_refl s E a u y : regular s E u -> smin s < smax s -> directed s -> yprop s E a a u y = y.
Proof. intros. rewrite yprop_kap by auto. apply (kap_inv s E u a y); auto; lra. Qed.
Lemma yprop_inv s E a b u y : regular s E u -> smin s < smax s -> directed s -> yprop s E b a u (yprop s E a b u y) = y.
Proof. intros. rewrite yprop_compose by auto. apply yprop_refl; auto. Qed.

(** good sector lists *)
Definition good (l : list sec) (E : R) (u : bool) : Prop := forall s, In s l -> regular s E u /\ smin s < smax s /\ directed s.
Lemma good_tl s l E u : good (s :: l) E u -> good l E u.
Proof. intros H t Ht. apply H. cbn; auto. Qed.

Lemma runY_inv ss E a b u y : good ss E u -> runY (rev ss) E b a u (runY ss E a b u y) = y.
Proof.
  revert y. induction ss as [|s ss IH]; intros y G; [reflexivity|]. cbn [rev]. rewrite runY_app.
  cbn [runY fold_left]. change (fold_left (fun y s => yprop s E a b u y) ss (yprop s E a b u y)) with (runY ss E a b u (yprop s E a b u y)).
  rewrite IH by (eapply good_tl; eauto). unfold runY; cbn [fold_left]. destruct (G s) as [A [B C]]; [cbn; auto|]. apply yprop_inv; auto.
Qed.
Lemma runY_noop ss E a b u y : (forall s, In s ss -> (smax s <= a /\ smax s <= b) \/ (a <= smin s /\ b <= smin s)) -> runY ss E a b u y = y.
Proof.
  revert y. induction ss as [|s ss IH]; intros y H; [reflexivity|]. unfold runY in *; cbn [fold_left]. rewrite IH; [|intros; apply H; cbn; auto].
  unfold P_Core.yprop. rewrite yprop_noop; auto. apply H; cbn; auto.
Qed.
Lemma chain_order l lo hi : chain lo hi l -> (forall s, In s l -> smin s <= smax s) -> lo <= hi /\ forall s : sec, In s l -> lo <= smin s /\ smax s <= hi.
Proof.
  revert lo. induction l as [|t l IH]; intros lo C O; cbn in C.
  - subst; split; [lra|intros s []].
  - destruct C as [E C]. destruct (IH _ C) as [A B]; [intros; apply O; cbn; auto|]. pose proof (O t (or_introl eq_refl)).
    split; [lra|]. intros s [->|Hs]; [lra|]. destruct (B s Hs). lra.
Qed.
Lemma runY_compose_up l lo hi E a b c u y : chain lo hi l -> good l E u -> a <= b <= c ->
  runY l E b c u (runY l E a b u y) = runY l E a c u y.
Proof.
  revert lo y. induction l as [|s l IH]; intros lo y Ch G Hab; [reflexivity|].
  cbn in Ch. destruct Ch as [Ei Ch]. destruct (G s) as [Rg [Ho Dd]]; [cbn; auto|]. pose proof (good_tl _ _ _ _ G) as G'.
  destruct (chain_order l (smax s) hi Ch) as [_ CO]. { intros t Ht. destruct (G' t Ht) as [_ [? _]]. lra. }
  change (runY (s :: l) E a b u y) with (runY l E a b u (yprop s E a b u y)).
  change (runY (s :: l) E a c u y) with (runY l E a c u (yprop s E a c u y)).
  match goal with |- runY (s :: l) E b c u ?z = _ => change (runY (s :: l) E b c u z) with (runY l E b c u (yprop s E b c u z)) end.
  destruct (Rle_lt_dec (smax s) b) as [Hb|Hb].
  - replace (yprop s E b c u (runY l E a b u (yprop s E a b u y))) with (runY l E a b u (yprop s E a b u y)).
    2:{ unfold P_Core.yprop at 2. rewrite yprop_noop; [reflexivity|lra]. }
    rewrite (IH _ _ Ch G' Hab). f_equal. rewrite <- (yprop_compose s E a b c u y) by auto.
    unfold P_Core.yprop at 2. rewrite yprop_noop; [reflexivity|lra].
  - rewrite (runY_noop l E a b u). 2:{ intros t Ht. destruct (CO t Ht). lra. }
    rewrite yprop_compose by auto. rewrite <- (IH _ (yprop s E a c u y) Ch G' Hab).
    rewrite (runY_noop l E a b u). 2:{ intros t Ht. destruct (CO t Ht). lra. } reflexivity.
Qed.

Section Dom2.
Variables (l : list sec) (lo hi : R).
Hypothesis PT : partition lo hi l.

Lemma path_full_up i j si sj E a b u y : (forall s, In s l -> smin s <= smax s) ->
  nth_error l i = Some si -> contains si a = true -> nth_error l j = Some sj -> contains sj b = true -> (i <= j)%nat -> a <= b ->
  runY (path l i j) E a b u y = runY l E a b u y.
Proof.
  intros O Hi Ca Hj Cb L Hab. apply contains_R in Ca, Cb.
  unfold path. destruct (Nat.leb_spec i j); [|lia].
  assert (EL : l = firstn i l ++ firstn (j - i + 1) (skipn i l) ++ skipn (j + 1) l).
  { rewrite <- (firstn_skipn i l) at 1. f_equal. rewrite <- (firstn_skipn (j - i + 1) (skipn i l)) at 1. f_equal.
    rewrite skipn_skipn. f_equal. lia. }
  rewrite EL at 2. rewrite !runY_app.
  assert (OL : ordered l) by (apply ord_l; auto).
  rewrite (runY_noop (firstn i l)).
  2:{ intros s Hs. left. apply In_nth_error in Hs as [k Hk]. 
      assert (k < i)%nat. { assert (k < length (firstn i l))%nat by (apply nth_error_Some; congruence). rewrite firstn_length in *. lia. }
      assert (Hk' : nth_error l k = Some s). { rewrite EL, nth_error_app1 by (rewrite firstn_length in *; assert (i < length l)%nat by (apply nth_error_Some; congruence); lia). auto. }
      assert (exists s1, nth_error l (S k) = Some s1) as [s1 H1]. { assert (i < length l)%nat by (apply nth_error_Some; congruence). destruct (nth_error l (S k)) eqn:Q; eauto. apply nth_error_None in Q. lia. }
      destruct PT as [_ Ch]. pose proof (chain_nth l lo hi k s s1 Ch Hk' H1) as M.
      destruct (chain_mono l lo hi (S k) i s1 si Ch OL ltac:(lia) H1 Hi) as [M1 _]. apply Rleb_true in M1. lra. }
  symmetry. apply runY_noop.
  intros s Hs. right. apply In_nth_error in Hs as [k Hk]. rewrite nth_skipn in Hk.
  assert (exists s1, nth_error l (j + k) = Some s1) as [s1 H1]. { assert (j + 1 + k < length l)%nat by (apply nth_error_Some; congruence). destruct (nth_error l (j + k)) eqn:Q; eauto. apply nth_error_None in Q. lia. }
  destruct PT as [_ Ch]. replace (j + 1 + k)%nat with (S (j + k)) in Hk by lia. pose proof (chain_nth l lo hi (j + k) s1 s Ch H1 Hk) as M.
  destruct (chain_mono l lo hi j (j + k) sj s1 Ch OL ltac:(lia) Hj H1) as [_ M1]. apply Rleb_true in M1. lra.
Qed.
Lemma path_full_down i j si sj E a b u y : (forall s, In s l -> smin s <= smax s) ->
  nth_error l i = Some si -> contains si a = true -> nth_error l j = Some sj -> contains sj b = true -> (j <= i)%nat -> b <= a ->
  runY (path l i j) E a b u y = runY (rev l) E a b u y.
Proof.
  intros O Hi Ca Hj Cb L Hab. apply contains_R in Ca, Cb.
  assert (EP : path l i j = rev (firstn (i - j + 1) (skipn j l))).
  { unfold path. destruct (Nat.leb_spec i j); [|reflexivity]. assert (i = j) by lia. subst j. rewrite (skipn_nth _ _ _ Hi).
    replace (i - i + 1)%nat with 1%nat by lia. reflexivity. }
  rewrite EP.
  assert (EL : l = firstn j l ++ firstn (i - j + 1) (skipn j l) ++ skipn (i + 1) l).
  { rewrite <- (firstn_skipn j l) at 1. f_equal. rewrite <- (firstn_skipn (i - j + 1) (skipn j l)) at 1. f_equal.
    rewrite skipn_skipn. f_equal. lia. }
  rewrite EL at 2. rewrite !rev_app_distr, !runY_app.
  assert (OL : ordered l) by (apply ord_l; auto).
  rewrite (runY_noop (rev (skipn (i + 1) l))).
  2:{ intros s Hs. apply in_rev in Hs. right. apply In_nth_error in Hs as [k Hk]. rewrite nth_skipn in Hk.
  assert (exists s1, nth_error l (i + k) = Some s1) as [s1 H1]. { assert (i + 1 + k < length l)%nat by (apply nth_error_Some; congruence). destruct (nth_error l (i + k)) eqn:Q; eauto. apply nth_error_None in Q. lia. }
  destruct PT as [_ Ch]. replace (i + 1 + k)%nat with (S (i + k)) in Hk by lia. pose proof (chain_nth l lo hi (i + k) s1 s Ch H1 Hk) as M.
  destruct (chain_mono l lo hi i (i + k) si s1 Ch OL ltac:(lia) Hi H1) as [_ M1]. apply Rleb_true in M1. lra. }
  symmetry. apply runY_noop.
  intros s Hs. apply in_rev in Hs. left. apply In_nth_error in Hs as [k Hk]. 
      assert (k < j)%nat. { assert (k < length (firstn j l))%nat by (apply nth_error_Some; congruence). rewrite firstn_length in *. lia. }
      assert (Hk' : nth_error l k = Some s). { rewrite EL, nth_error_app1 by (rewrite firstn_length in *; assert (j < length l)%nat by (apply nth_error_Some; congruence); lia). auto. }
      assert (exists s1, nth_error l (S k) = Some s1) as [s1 H1]. { assert (j < length l)%nat by (apply nth_error_Some; congruence). destruct (nth_error l (S k)) eqn:Q; eauto. apply nth_error_None in Q. lia. }
      destruct PT as [_ Ch]. pose proof (chain_nth l lo hi k s s1 Ch Hk' H1) as M.
      destruct (chain_mono l lo hi (S k) j s1 sj Ch OL ltac:(lia) H1 Hj) as [M1 _]. apply Rleb_true in M1. lra.
Qed.

Lemma propagate_full a b : (forall s, In s l -> smin s <= smax s) -> lo <= a <= hi -> lo <= b <= hi ->
  forall E y u, exists th, propagate l lo hi E y a b u = Ret (runY (if Rleb a b then l else rev l) E a b u y, th).
Proof.
  intros O Ha Hb E y u. destruct (propagate_path calcT vm l lo hi PT O a b Ha Hb) as [i [j [si [sj [Hi [Ci [Hj [Cj [U [D F]]]]]]]]]].
  eexists. rewrite F. f_equal. rewrite (surjective_pairing (P_Core.run _ _ _ _ _ _ _ _)). f_equal. rewrite run_fst; cbn [fst].
  destruct (Rleb a b) eqn:AB; [apply Rleb_true in AB|apply Rleb_false in AB].
  - eapply path_full_up; eauto.
  - eapply path_full_down; eauto; try (apply D; lra). lra.
Qed.

Lemma runY_inv' E a b u y : good l E u -> runY l E b a u (runY (rev l) E a b u y) = y.
Proof.
  intros G. assert (G' : good (rev l) E u) by (intros s Hs; apply G; apply in_rev; auto).
  pose proof (runY_inv (rev l) E a b u y G') as H. rewrite rev_involutive in H. exact H.
Qed.

Lemma runY_refl ss E a u y : good ss E u -> runY ss E a a u y = y.
Proof.
  revert y. induction ss as [|s ss IH]; intros y G; [reflexivity|].
  change (runY ss E a a u (yprop s E a a u y) = y). rewrite IH by (eapply good_tl; eauto). destruct (G s) as [A [B C]]; [cbn; auto|]. apply yprop_refl; auto.
Qed.
(** Composition for arbitrary positions of a, b, c. *)
Lemma compose_any E a b c u y : good l E u ->
  runY (if Rleb b c then l else rev l) E b c u (runY (if Rleb a b then l else rev l) E a b u y) = runY (if Rleb a c then l else rev l) E a c u y.
Proof.
  intros G. destruct PT as [_ Ch].
  set (P := fun a b y => runY (if Rleb a b then l else rev l) E a b u y).
  change (P b c (P a b y) = P a c y).
  assert (Pup : forall a b y, a <= b -> P a b y = runY l E a b u y).
  { intros p q z H. unfold P. apply Rleb_true in H. rewrite H. reflexivity. }
  assert (Pdn : forall a b y, b < a -> P a b y = runY (rev l) E a b u y).
  { intros p q z H. unfold P. apply Rleb_false in H. rewrite H. reflexivity. }
  assert (Prefl : forall a y, P a a y = y).
  { intros p z. rewrite Pup by lra. apply runY_refl; auto. }
  assert (Pinv : forall a b y, P b a (P a b y) = y).
  { intros p q z. destruct (Rtotal_order p q) as [H|[H|H]].
    - rewrite (Pup p q), (Pdn q p) by lra. apply runY_inv; auto.
    - subst. rewrite !Prefl. reflexivity.
    - rewrite (Pdn p q), (Pup q p) by lra. apply runY_inv'; auto. }
  assert (Pcomp : forall a b c y, a <= b -> b <= c -> P b c (P a b y) = P a c y).
  { intros p q r z H1 H2. rewrite (Pup p q), (Pup q r), (Pup p r) by lra. eapply runY_compose_up; eauto. }
  destruct (Rle_lt_dec a b) as [L1|L1]; destruct (Rle_lt_dec b c) as [L2|L2].
  - apply Pcomp; auto.
  - (* a <= b, c < b *) destruct (Rle_lt_dec a c) as [L3|L3].
    + rewrite <- (Pcomp a c b y) by lra. apply Pinv.
    + (* c < a <= b: P b c (P a b y), y = P c a z *) 
      rewrite <- (Pinv a c y) at 1. rewrite (Pcomp c a b) by lra. apply Pinv.
  - (* b < a, b <= c *) destruct (Rle_lt_dec a c) as [L3|L3].
    + rewrite <- (Pcomp b a c) by lra. rewrite Pinv. reflexivity.
    + rewrite <- (Pinv c a (P b c (P a b y))). rewrite (Pcomp b c a) by lra. rewrite Pinv. reflexivity.
  - (* c < b < a *) rewrite <- (Pinv c a (P b c (P a b y))). rewrite <- (Pcomp c b a) by lra. rewrite (Pinv b c). rewrite Pinv. reflexivity.
Qed.
End Dom2.

(** ** C23 *)
Lemma tdelta_scale s E u d c y : c <> 0 -> tdelta s E u d (yscale c y) = tdelta s E u d y.
Proof.
  intros Hc. assert (Q : 0 < c * c) by nra.
  pose proof (proj2 (ydelta_linear calcT vm s E u d) c y) as L. unfold P_Core.ydelta in L.
  unfold P_Core.tdelta, M_Core.propagateDelta in *. cbn [fst snd] in *.
  destruct (negb _); rewrite L; rewrite prufer_scale; auto.
Qed.
Lemma sprop_scale s E a b u c y : c <> 0 -> sprop s E (yscale c y) a b u = (yscale c (yprop s E a b u y), tprop s E a b u y).
Proof.
  intros Hc. unfold P_Core.yprop, P_Core.tprop, M_Core.sprop. cbv zeta. destruct (negb _); [|reflexivity].
  destruct (dir_eqb (sdir s) Dfwd).
  - destruct (Rltb (smin s) a); (destruct (Rltb (smin s) b)); rewrite ?pdelta_split; cbn [fst snd]; rewrite ?(proj2 (ydelta_linear calcT vm _ _ _ _)), ?tdelta_scale by auto; reflexivity.
  - destruct (Rltb a (smax s)); (destruct (Rltb b (smax s))); rewrite ?pdelta_split; cbn [fst snd]; rewrite ?(proj2 (ydelta_linear calcT vm _ _ _ _)), ?tdelta_scale by auto; reflexivity.
Qed.
Lemma run_scale ss E a b u c y th : c <> 0 -> run ss E a b u (yscale c y, th) = (yscale c (fst (run ss E a b u (y, th))), snd (run ss E a b u (y, th))).
Proof.
  intros Hc. revert y th. induction ss as [|s ss IH]; intros y th; [reflexivity|]. unfold P_Core.run in *. cbn [fold_left].
  unfold P_Core.run1 at 2 4 6. cbn [fst snd]. rewrite <- IH. f_equal.
  pose proof (sprop_scale s E a b u c y Hc) as H. unfold P_Core.yprop at 1, P_Core.tprop at 1. rewrite H. reflexivity.
Qed.
Lemma theta_start_scale s E a b c y : c <> 0 -> theta_start vm s E a b (yscale c y) = theta_start vm s E a b y.
Proof. intros. unfold theta_start. rewrite theta0_scale; auto. Qed.

Lemma propagate_scale l lo hi E y a b u c : c <> 0 ->
  propagate l lo hi E (yscale c y) a b u = do r <- propagate l lo hi E y a b u; Ret (yscale c (fst r), snd r).
Proof.
  intros Hc. unfold M_Core.propagate. destruct (_ || _)%bool; [reflexivity|]. cbn [bind].
  destruct (find_sector (length l) l a) as [i|m|m|]; try reflexivity. cbn [bind].
  destruct (vget l i) as [s|m|m|]; try reflexivity. cbn [bind].
  rewrite !prop_loop_visit. destruct (visit _ _ _ _ _) as [ss|m|m|]; try reflexivity. cbn [bind].
  rewrite theta_start_scale, run_scale by auto. reflexivity.
Qed.

(** ** C22: columns *)
Lemma combine_map_self {A B} (f : A -> B) l : combine l (map f l) = map (fun x => (x, f x)) l.
Proof. induction l; simpl; f_equal; auto. Qed.
Lemma combine_maps {A B C} (f : A -> B) (g : A -> C) l : combine (map f l) (map g l) = map (fun x => (f x, g x)) l.
Proof. induction l; simpl; f_equal; auto. Qed.

Lemma pdeltaN_cols s E u d (sts : list (Y * R)) :
  propagateDeltaN calcT vm s E u d (map fst sts, map snd sts) = (map fst (map (propagateDelta s E u d) sts), map snd (map (propagateDelta s E u d) sts)).
Proof.
  unfold propagateDeltaN, M_Core.propagateDelta.
  set (bw := dir_eqb (sdir s) Dbwd). set (dd := if bw then d * -1 else d).
  set (dr := Rleb 0 dd). set (t := calcT _ _ _ _).
  assert (Ey : (let y' := if bw then map reverse (map fst sts) else map fst sts in
          let y' := if dr then map (tmul t) y' else map (tdiv t) y' in if bw then map reverse y' else y')
     = map (fun st => if bw then reverse (if dr then tmul t (if bw then reverse (fst st) else fst st) else tdiv t (if bw then reverse (fst st) else fst st)) else (if dr then tmul t (if bw then reverse (fst st) else fst st) else tdiv t (if bw then reverse (fst st) else fst st))) sts).
  { cbv zeta. destruct bw, dr; rewrite ?map_map; reflexivity. }
  cbv zeta in *. rewrite Ey. clear Ey. rewrite !map_map. f_equal.
  - apply map_ext. intros [y th]. cbn [fst]. destruct bw, dr; reflexivity.
  - destruct (negb _).
    + rewrite (combine_maps fst _ sts), map_map, (combine_maps snd _ sts), map_map. apply map_ext. intros [y th]. cbn [fst snd]. destruct bw, dr; reflexivity.
    + rewrite (combine_maps _ fst sts), map_map, (combine_maps snd _ sts), map_map. apply map_ext. intros [y th]. cbn [fst snd]. destruct bw, dr; reflexivity.
Qed.
Lemma spropN_cols s E ys a b u : spropN calcT vm s E ys a b u = (map (fun y => fst (sprop s E y a b u)) ys, map (fun y => snd (sprop s E y a b u)) ys).
Proof.
  unfold spropN, M_Core.sprop. cbv zeta.
  assert (E0 : (ys, map (fun _ => 0) ys) = (map fst (map (fun y => (y, 0)) ys), map snd (map (fun y : Y => (y, 0)) ys))).
  { rewrite !map_map. cbn. rewrite map_id. reflexivity. }
  destruct (negb _); [|rewrite E0, !map_map; reflexivity].
  destruct (dir_eqb (sdir s) Dfwd).
  - destruct (Rltb (smin s) a), (Rltb (smin s) b); rewrite ?E0, ?pdeltaN_cols, ?map_map; reflexivity.
  - destruct (Rltb a (smax s)), (Rltb b (smax s)); rewrite ?E0, ?pdeltaN_cols, ?map_map; reflexivity.
Qed.
(** columns of one-column results *)
Lemma prop_loopN_cols fuel l E a b u idx (sts : list (Y * R)) :
  prop_loopN calcT vm fuel l E a b u idx (map fst sts) (map snd sts) =
  do ss <- visit fuel l a b idx; Ret (map (fun st => fst (run ss E a b u st)) sts, map (fun st => snd (run ss E a b u st)) sts).
Proof.
  revert idx sts. induction fuel as [|f IH]; intros; cbn [prop_loopN visit bind]; [reflexivity|].
  destruct (vget l idx) as [s|m|m|]; cbn [bind]; try reflexivity.
  rewrite spropN_cols. rewrite map_map.
  set (sts' := map (fun st => run1 E a b u st s) sts).
  assert (A : map (fun x => fst (sprop s E (fst x) a b u)) sts = map fst sts').
  { unfold sts'. rewrite map_map. apply map_ext. intros; reflexivity. }
  assert (B : map (fun p => fst p + snd p) (combine (map snd sts) (map (fun y => snd (sprop s E y a b u)) (map fst sts))) = map snd sts').
  { unfold sts'. rewrite (map_map fst), (combine_maps snd _ sts), !map_map. apply map_ext. intros; reflexivity. }
  rewrite A, B. destruct (contains s b).
  - cbn [bind]. unfold sts'. rewrite !map_map. reflexivity.
  - cbv zeta. destruct (_ && _)%bool.
    + rewrite IH. destruct (visit f l a b _) as [r|m|m|]; cbn [bind]; try reflexivity. unfold sts'. rewrite !map_map. reflexivity.
    + cbn [bind]. unfold sts'. rewrite !map_map. reflexivity.
Qed.
End Props2.

(** ** C24 *)
Section Mirror.
Variable ct : R -> list R -> R -> R -> bool -> Tm.
Variable vm : R.
Notation calcT := (fun s : sec => ct (sh s) (spay s)).
Definition mirror (s : sec) : sec := mkSector (- smax s) (- smin s) (match sdir s with Dfwd => Dbwd | Dbwd => Dfwd | Dnone => Dnone end) (spay s).
Lemma Rltb_opp a b : Rltb (- a) (- b) = Rltb b a.
Proof. destruct (Rltb b a) eqn:E; [apply Rltb_true; apply Rltb_true in E|apply Rltb_false; apply Rltb_false in E]; lra. Qed.
Lemma Rleb_opp a b : Rleb (- a) (- b) = Rleb b a.
Proof. destruct (Rleb b a) eqn:E; [apply Rleb_true; apply Rleb_true in E|apply Rleb_false; apply Rleb_false in E]; lra. Qed.
Lemma sh_mirror s : sh (mirror s) = sh s.
Proof. unfold sh, mirror; cbn. ring. Qed.

Lemma ydelta_mirror s E u d y : directed s ->
  ydelta calcT vm s E u d y = reverse (ydelta calcT vm (mirror s) E u (- d) (reverse y)).
Proof.
  intros Dd. unfold ydelta, propagateDelta. rewrite sh_mirror. replace (spay (mirror s)) with (spay s) by reflexivity. cbn [fst].
  destruct Dd as [Ed | Ed]; assert (Em : sdir (mirror s) = match sdir s with Dfwd => Dbwd | Dbwd => Dfwd | Dnone => Dnone end) by reflexivity; rewrite Ed in Em; rewrite Em, Ed; cbn [dir_eqb]; rewrite ?reverse_reverse.
  - replace (- d * -1) with d by ring. rewrite ?reverse_reverse. reflexivity.
  - replace (d * -1) with (- d) by ring. reflexivity.
Qed.
Lemma yprop_mirror s E a b u y : directed s ->
  yprop calcT vm s E a b u y = reverse (yprop calcT vm (mirror s) E (- a) (- b) u (reverse y)).
Proof.
  intros Dd. unfold yprop, sprop. cbv zeta.
  replace (smax (mirror s)) with (- smin s) by reflexivity. replace (smin (mirror s)) with (- smax s) by reflexivity.
  rewrite !Rleb_opp, !Rltb_opp. rewrite (orb_comm (Rleb a (smin s) && Rleb b (smin s))).
  destruct (negb _); [|cbn [fst]; rewrite reverse_reverse; reflexivity].
  assert (Dm : directed (mirror s)) by (destruct Dd as [E1|E1]; [right|left]; unfold mirror; cbn; rewrite E1; reflexivity).
  destruct Dd as [Ed | Ed]; assert (Em : sdir (mirror s) = match sdir s with Dfwd => Dbwd | Dbwd => Dfwd | Dnone => Dnone end) by reflexivity; rewrite Ed in Em; rewrite Em, Ed; cbn [dir_eqb].
  - destruct (Rltb (smin s) a), (Rltb (smin s) b); rewrite ?pdelta_split; cbn [fst];
     repeat (rewrite (ydelta_mirror s) by (left; auto); rewrite ?reverse_reverse); rewrite ?reverse_reverse;
     rewrite ?Ropp_minus_distr; repeat match goal with |- context [- ?x - - ?y] => replace (- x - - y) with (y - x) by ring end; reflexivity.
  - destruct (Rltb a (smax s)), (Rltb b (smax s)); rewrite ?pdelta_split; cbn [fst];
     repeat (rewrite (ydelta_mirror s) by (right; auto); rewrite ?reverse_reverse); rewrite ?reverse_reverse;
     rewrite ?Ropp_minus_distr; repeat match goal with |- context [- ?x - - ?y] => replace (- x - - y) with (y - x) by ring end; reflexivity.
Qed.
End Mirror.
