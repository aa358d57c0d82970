(** The angle accumulated over a propagation with exact steps is a continuous angle of the solution. *)
From Coq Require Import Reals ZArith Lra Lia Bool.
From Coquelicot Require Import Coquelicot.
From Coq Require Import List.
From Verif Require Import Base M_Sectors S_Sectors P_Lookup M_Core S_Core P_Core P_Core2 P_Prufer S_Formulas P_Terms2 S_Accuracy S_Zeros P_Lift P_Lift2 P_Cross P_Global2 P_Global3 P_Step P_Step2.
Import ListNotations.
Open Scope R_scope.

Lemma reach_cl : forall s x, reach s x = cl s x. Proof. reflexivity. Qed.
Lemma from_base_dl : forall s x, from_base s x = dl s x. Proof. reflexivity. Qed.

Section Exact.
Variable calcT : sec -> R -> R -> bool -> Tm.
Variable vm : R.
Notation ydelta := (ydelta calcT vm).
Notation tdelta := (tdelta calcT vm).
Notation yprop := (yprop calcT vm).
Notation tprop := (tprop calcT vm).
Notation run := (run calcT vm).

Lemma tdelta_fwd : forall s E u y x, sdir s = Dfwd -> smin s < smax s -> smin s < x ->
  tdelta s E u (x - smin s) y = prufer vm s E (dl s x) y (ydelta s E u (x - smin s) y).
Proof.
  intros s E u y x Hd Ho Hx. rewrite ydelta_fwd by assumption. unfold P_Core.tdelta, propagateDelta. rewrite Hd. cbn [dir_eqb snd].
  assert (Rleb 0 (x - smin s) = true) as -> by (apply Rleb_true; lra). cbn [negb Bool.eqb]. rewrite clip_low by lra. rewrite Rplus_0_l.
  assert (Rmin (x - smin s) (sh s) = dl s x) as ->; [|reflexivity]. unfold dl, cl, sh. rewrite Hd. unfold Rmax, Rmin. repeat destruct (Rle_dec _ _); lra.
Qed.
Lemma tdelta_fwd_back : forall s E u y x, sdir s = Dfwd -> smin s < smax s -> smin s < x ->
  tdelta s E u (smin s - x) y = - prufer vm s E (dl s x) (ydelta s E u (smin s - x) y) y.
Proof.
  intros s E u y x Hd Ho Hx. rewrite ydelta_fwd_back by assumption. unfold P_Core.tdelta, propagateDelta. rewrite Hd. cbn [dir_eqb snd].
  assert (Rleb 0 (smin s - x) = false) as -> by (apply Rleb_false; lra). cbn [negb Bool.eqb]. rewrite clip_low by lra. rewrite Rplus_0_l.
  assert (Rmin (- (smin s - x)) (sh s) = dl s x) as ->; [|reflexivity]. unfold dl, cl, sh. rewrite Hd. unfold Rmax, Rmin. repeat destruct (Rle_dec _ _); lra.
Qed.
Lemma tdelta_bwd : forall s E u y x, sdir s = Dbwd -> smin s < smax s -> x < smax s ->
  tdelta s E u (x - smax s) y = - prufer vm s E (dl s x) (ydelta s E u (x - smax s) y) y.
Proof.
  intros s E u y x Hd Ho Hx. rewrite ydelta_bwd by assumption. unfold P_Core.tdelta, propagateDelta. rewrite Hd. cbn [dir_eqb snd].
  replace ((x - smax s) * -1) with (smax s - x) by ring.
  assert (Rleb 0 (smax s - x) = true) as -> by (apply Rleb_true; lra). cbn [negb Bool.eqb]. rewrite clip_low by lra. rewrite Rplus_0_l.
  assert (Rmin (smax s - x) (sh s) = dl s x) as ->; [|reflexivity]. unfold dl, cl, sh. rewrite Hd. unfold Rmax, Rmin. repeat destruct (Rle_dec _ _); lra.
Qed.
Lemma tdelta_bwd_back : forall s E u y x, sdir s = Dbwd -> smin s < smax s -> x < smax s ->
  tdelta s E u (smax s - x) y = prufer vm s E (dl s x) y (ydelta s E u (smax s - x) y).
Proof.
  intros s E u y x Hd Ho Hx. rewrite ydelta_bwd_back by assumption. unfold P_Core.tdelta, propagateDelta. rewrite Hd. cbn [dir_eqb snd].
  replace ((smax s - x) * -1) with (x - smax s) by ring.
  assert (Rleb 0 (x - smax s) = false) as -> by (apply Rleb_false; lra). cbn [negb Bool.eqb]. rewrite clip_low by lra. rewrite Rplus_0_l.
  assert (Rmin (- (x - smax s)) (sh s) = dl s x) as ->; [|reflexivity]. unfold dl, cl, sh. rewrite Hd. unfold Rmax, Rmin. repeat destruct (Rle_dec _ _); lra.
Qed.

Section Solution.
Variable V : R -> R.
Variable E : R.
Variables z z' : R -> R.
Variable phi : R -> R.
Variables lo hi : R.
Hypothesis Nz : nontrivial z z' lo hi.
Hypothesis Aphi : ang (scaling vm E) z z' lo hi phi.

Definition at_ (Z : Y) (x : R) : Prop := y0 Z = z x /\ y1 Z = z' x.

Variable u : bool.
Definition fine (s : sec) (a b : R) : Prop :=
  directed s /\ smin s < smax s /\ lo <= smin s /\ smax s <= hi /\ sol_on V E (smin s) (smax s) z z' /\ resolved V s /\
  exact_to calcT V E u s a /\ exact_to calcT V E u s b /\ stretch_ok V E s a /\ stretch_ok V E s b.

Lemma sol_on_solution : forall s y y', sol_on V E (smin s) (smax s) y y' -> solution V E (smin s) (smax s) [s] y y'.
Proof. intros s y y' [H1 H2]. split; [exact H1|]. intros t x [<-|[]] Hx. apply H2, Hx. Qed.

(** the angle over a stretch [p, q] of a sector *)
Lemma stretch_angle : forall s p q ya yb, smin s <= p -> p < q -> q <= smax s -> lo <= smin s -> smax s <= hi -> sol_on V E (smin s) (smax s) z z' -> resolved V s ->
  (v0 s < E -> mean_at_most V p q E) -> at_ ya p -> at_ yb q -> prufer vm s E (q - p) ya yb = phi q - phi p.
Proof.
  intros s p q ya yb H1 H2 H3 H4 H5 Hs [_ (D & HD & HDh)] Hm [A0 A1] [B0 B1].
  assert (sol_on V E p q z z') as Hs' by (apply (sol_on_sub V E (smin s) (smax s)); assumption).
  assert (nontrivial z z' p q) as Nz' by (intros x Hx; apply Nz; lra).
  assert (ang (scaling vm E) z z' p q phi) as A' by (apply (lift_sub _ _ lo hi); [exact Aphi|lra|lra]).
  apply (step_angle vm s E V D z z' p q phi ya yb); try assumption.
  - intros x Hx. apply HD. lra.
  - eapply Rle_lt_trans; [|exact HDh]. assert (0 <= D) by (eapply Rle_trans; [apply Rabs_pos|apply (HD ((p + q) / 2)); lra]).
    apply Rmult_le_compat_l; [assumption|]. unfold sh. apply Rmult_le_compat; lra.
  - intro HE. apply (ang_nondecr V E (scaling vm E) z z' p q phi); try assumption; [apply scaling_pos|lra|apply Hm, HE].
Qed.
Lemma full_mean : forall s, resolved V s -> smin s <= smax s -> v0 s < E -> mean_at_most V (smin s) (smax s) E.
Proof.
  intros s [(W & W1 & W2 & W3) _] Ho HE. exists W. split; [exact W1|]. split; [exact W2|]. rewrite W3. apply Rmult_le_compat_r; lra.
Qed.

(** exactness of one multiplication, one division *)
Lemma exact_mul : forall s x Z, directed s -> exact_to calcT V E u s x -> sol_on V E (smin s) (smax s) z z' ->
  at_ Z (match sdir s with Dfwd => smin s | _ => smax s end) -> at_ (rv s (tmul (calcT s E (dl s x) u) (rv s Z))) (cl s x).
Proof.
  intros s x Z Dd [_ Hx] Hs [A0 A1]. specialize (Hx z z' (sol_on_solution s z z' Hs)). rewrite from_base_dl, reach_cl in Hx. unfold at_.
  destruct Dd as [Hd|Hd]; rewrite Hd in *; unfold rv; rewrite Hd; unfold tmul, reverse; cbn [y0 y1]; rewrite A0, A1; destruct Hx as [X0 X1].
  - split; assumption.
  - split; [rewrite <- X0; ring|]. transitivity (- - z' (cl s x)); [rewrite <- X1; ring|ring].
Qed.
Lemma exact_div : forall s x Z, directed s -> exact_to calcT V E u s x -> sol_on V E (smin s) (smax s) z z' ->
  at_ Z (cl s x) -> at_ (rv s (tdiv (calcT s E (dl s x) u) (rv s Z))) (match sdir s with Dfwd => smin s | _ => smax s end).
Proof.
  intros s x Z Dd [Hdet Hx] Hs [A0 A1]. specialize (Hx z z' (sol_on_solution s z z' Hs)). rewrite from_base_dl in Hdet. rewrite from_base_dl, reach_cl in Hx. unfold at_. unfold det in Hdet.
  set (T := calcT s E (dl s x) u) in *. clearbody T.
  destruct Dd as [Hd|Hd]; rewrite Hd in *; unfold rv; rewrite Hd; unfold tdiv, tmul, reverse; cbn [y0 y1 t00 t01 t10 t11]; rewrite A0, A1; destruct Hx as [X0 X1].
  - rewrite <- X0, <- X1. split.
    + transitivity ((t00 T * t11 T - t01 T * t10 T) * z (smin s)); [ring|rewrite Hdet; ring].
    + transitivity ((t00 T * t11 T - t01 T * t10 T) * z' (smin s)); [ring|rewrite Hdet; ring].
  - replace (z' (cl s x) * -1) with (- z' (cl s x)) by ring. rewrite <- X0, <- X1. split.
    + transitivity ((t00 T * t11 T - t01 T * t10 T) * z (smax s)); [ring|rewrite Hdet; ring].
    + transitivity ((t00 T * t11 T - t01 T * t10 T) * z' (smax s)); [ring|rewrite Hdet; ring].
Qed.

Lemma stretch_means_fwd : forall s x, sdir s = Dfwd -> smin s < smax s -> resolved V s -> stretch_ok V E s x -> smin s < x -> v0 s < E -> mean_at_most V (smin s) (cl s x) E.
Proof.
  intros s x Hd Ho Hr Hs Hx HE. unfold stretch_ok in Hs. rewrite Hd in Hs. destruct (Rlt_le_dec x (smax s)) as [L|L].
  - rewrite cl_in by lra. apply Hs; [lra|exact HE].
  - rewrite cl_high by lra. apply full_mean; [exact Hr|lra|exact HE].
Qed.
Lemma stretch_means_bwd : forall s x, sdir s = Dbwd -> smin s < smax s -> resolved V s -> stretch_ok V E s x -> x < smax s -> v0 s < E -> mean_at_most V (cl s x) (smax s) E.
Proof.
  intros s x Hd Ho Hr Hs Hx HE. unfold stretch_ok in Hs. rewrite Hd in Hs. destruct (Rlt_le_dec (smin s) x) as [L|L].
  - rewrite cl_in by lra. apply Hs; [lra|exact HE].
  - rewrite cl_low by lra. apply full_mean; [exact Hr|lra|exact HE].
Qed.

Lemma cl_gt : forall s x, smin s < smax s -> smin s < x -> smin s < cl s x. Proof. intros. mm. Qed.
Lemma cl_lt : forall s x, smin s < smax s -> x < smax s -> cl s x < smax s. Proof. intros. mm. Qed.

(** one sector *)
Lemma sector_step : forall s a b Z, fine s a b -> ~ noop s a b -> at_ Z (cl s a) ->
  at_ (yprop s E a b u Z) (cl s b) /\ tprop s E a b u Z = phi (cl s b) - phi (cl s a).
Proof.
  intros s a b Z (Dd & Ho & Hlo & Hhi & Hs & Hr & Xa & Xb & Sa & Sb) Hn HZ.
  unfold P_Core.yprop, P_Core.tprop, sprop. cbv zeta.
  assert ((Rleb (smax s) a && Rleb (smax s) b) || (Rleb a (smin s) && Rleb b (smin s)) = false) as ->.
  { apply not_true_iff_false. intro K. apply Hn. apply orb_true_iff in K. destruct K as [K|K]; apply andb_true_iff in K; rewrite !Rleb_true in K; [left|right]; exact K. }
  cbn [negb].
  destruct Dd as [Hd|Hd]; rewrite Hd; cbn [dir_eqb].
  - (* forward *)
    assert (forall Z0 th, at_ Z0 (smin s) -> exists Z1 th1, (if Rltb (smin s) b then propagateDelta calcT vm s E u (b - smin s) (Z0, th) else (Z0, th)) = (Z1, th1) /\
      at_ Z1 (cl s b) /\ th1 = th + (phi (cl s b) - phi (smin s))) as B2.
    { intros Z0 th H0. destruct (Rltb (smin s) b) eqn:Lb; [apply Rltb_true in Lb|apply Rltb_false in Lb].
      - rewrite pdelta_split. eexists _, _. split; [reflexivity|].
        assert (at_ (ydelta s E u (b - smin s) Z0) (cl s b)) as HY.
        { rewrite ydelta_fwd by assumption. pose proof (exact_mul s b Z0 (or_introl Hd) Xb Hs) as X. unfold rv in X. rewrite Hd in X. apply X, H0. }
        split; [exact HY|]. f_equal. rewrite tdelta_fwd by assumption. unfold dl. rewrite Hd.
        apply (stretch_angle s); try assumption; [lra|apply cl_gt; assumption|apply cl_range; lra|]. intro HE. apply stretch_means_fwd; assumption.
      - exists Z0, th. rewrite cl_low by lra. split; [reflexivity|]. split; [exact H0|lra]. }
    destruct (Rltb (smin s) a) eqn:La; [apply Rltb_true in La|apply Rltb_false in La].
    + rewrite pdelta_split.
      assert (at_ (ydelta s E u (smin s - a) Z) (smin s)) as HY.
      { rewrite ydelta_fwd_back by assumption. pose proof (exact_div s a Z (or_introl Hd) Xa Hs HZ) as X. unfold rv in X. rewrite Hd in X. exact X. }
      destruct (B2 _ (0 + tdelta s E u (smin s - a) Z) HY) as (Z1 & th1 & -> & HZ1 & ->). cbn [fst snd]. split; [exact HZ1|].
      rewrite tdelta_fwd_back by assumption. unfold dl. rewrite Hd.
      rewrite (stretch_angle s (smin s) (cl s a)); try assumption; [lra|lra|apply cl_gt; assumption|apply cl_range; lra|]. intro HE. apply stretch_means_fwd; assumption.
    + rewrite (cl_low s a) in HZ by lra. destruct (B2 Z 0 HZ) as (Z1 & th1 & -> & HZ1 & ->). cbn [fst snd]. split; [exact HZ1|]. rewrite (cl_low s a) by lra. ring.
  - (* backward *)
    assert (forall Z0 th, at_ Z0 (smax s) -> exists Z1 th1, (if Rltb b (smax s) then propagateDelta calcT vm s E u (b - smax s) (Z0, th) else (Z0, th)) = (Z1, th1) /\
      at_ Z1 (cl s b) /\ th1 = th + (phi (cl s b) - phi (smax s))) as B2.
    { intros Z0 th H0. destruct (Rltb b (smax s)) eqn:Lb; [apply Rltb_true in Lb|apply Rltb_false in Lb].
      - rewrite pdelta_split. eexists _, _. split; [reflexivity|].
        assert (at_ (ydelta s E u (b - smax s) Z0) (cl s b)) as HY.
        { rewrite ydelta_bwd by assumption. pose proof (exact_mul s b Z0 (or_intror Hd) Xb Hs) as X. unfold rv in X. rewrite Hd in X. apply X, H0. }
        split; [exact HY|]. f_equal. rewrite tdelta_bwd by assumption. unfold dl. rewrite Hd.
        rewrite (stretch_angle s (cl s b) (smax s)); try assumption; [lra|apply cl_range; lra|apply cl_lt; assumption|lra|]. intro HE. apply stretch_means_bwd; assumption.
      - exists Z0, th. rewrite cl_high by lra. split; [reflexivity|]. split; [exact H0|lra]. }
    destruct (Rltb a (smax s)) eqn:La; [apply Rltb_true in La|apply Rltb_false in La].
    + rewrite pdelta_split.
      assert (at_ (ydelta s E u (smax s - a) Z) (smax s)) as HY.
      { rewrite ydelta_bwd_back by assumption. pose proof (exact_div s a Z (or_intror Hd) Xa Hs HZ) as X. unfold rv in X. rewrite Hd in X. exact X. }
      destruct (B2 _ (0 + tdelta s E u (smax s - a) Z) HY) as (Z1 & th1 & -> & HZ1 & ->). cbn [fst snd]. split; [exact HZ1|].
      rewrite tdelta_bwd_back by assumption. unfold dl. rewrite Hd.
      rewrite (stretch_angle s (cl s a) (smax s)); try assumption; [lra|apply cl_range; lra|apply cl_lt; assumption|lra|]. intro HE. apply stretch_means_bwd; assumption.
    + rewrite (cl_high s a) in HZ by lra. destruct (B2 Z 0 HZ) as (Z1 & th1 & -> & HZ1 & ->). cbn [fst snd]. split; [exact HZ1|]. rewrite (cl_high s a) by lra. ring.
Qed.

(** no-op sectors *)
Lemma noop_step : forall s a b st, noop s a b -> run1 calcT vm E a b u st s = st.
Proof.
  intros s a b [Z th] Hn. unfold run1, P_Core.yprop, P_Core.tprop, sprop. cbv zeta.
  assert ((Rleb (smax s) a && Rleb (smax s) b) || (Rleb a (smin s) && Rleb b (smin s)) = true) as ->.
  { apply orb_true_iff. destruct Hn as [[H1 H2]|[H1 H2]]; [left|right]; apply andb_true_iff; rewrite !Rleb_true; auto. }
  cbn [negb fst snd]. f_equal. ring.
Qed.

(** along linked sectors *)
Lemma run_linked : forall a b (en ex : sec -> R) ss p q st, linked en ex p q ss ->
  (forall s, In s ss -> fine s a b /\ (noop s a b -> en s = ex s) /\ (~ noop s a b -> en s = cl s a /\ ex s = cl s b)) ->
  at_ (fst st) p -> at_ (fst (run ss E a b u st)) q /\ snd (run ss E a b u st) = snd st + (phi q - phi p).
Proof.
  intros a b en ex ss. induction ss as [|s ss IH]; intros p q st HL H Hat.
  - cbn in HL. subst q. cbn. split; [exact Hat|ring].
  - cbn in HL. destruct HL as [Ep HL]. destruct (H s (or_introl eq_refl)) as (Hf & Hno & Hact).
    change (run (s :: ss) E a b u st) with (run ss E a b u (run1 calcT vm E a b u st s)).
    specialize (IH (ex s) q (run1 calcT vm E a b u st s) HL (fun t Ht => H t (or_intror Ht))).
    destruct (noop_dec s a b) as [Hn|Hn].
    + rewrite (noop_step s a b st Hn) in *. rewrite <- (Hno Hn), Ep in IH. apply IH, Hat.
    + destruct (Hact Hn) as [E1 E2]. rewrite <- Ep, E1 in Hat.
      destruct (sector_step s a b (fst st) Hf Hn Hat) as [S1 S2]. rewrite <- E2 in S1.
      destruct (IH S1) as [I1 I2]. split; [exact I1|]. rewrite I2. unfold run1; cbn [fst snd]. rewrite S2, E2, <- Ep, E1. ring.
Qed.
End Solution.

(** the sectors visited by propagate may be replaced by all sectors *)
Lemma run_noop : forall ss E a b u st, (forall s, In s ss -> noop s a b) -> run ss E a b u st = st.
Proof.
  intros ss E a b u. induction ss as [|s ss IH]; intros st H; [reflexivity|].
  change (run (s :: ss) E a b u st) with (run ss E a b u (run1 calcT vm E a b u st s)). rewrite noop_step by (apply H; left; reflexivity). apply IH. intros t Ht. apply H. right. exact Ht.
Qed.
Lemma run_app : forall s1 s2 E a b u st, run (s1 ++ s2) E a b u st = run s2 E a b u (run s1 E a b u st).
Proof. intros. apply fold_left_app. Qed.
End Exact.
