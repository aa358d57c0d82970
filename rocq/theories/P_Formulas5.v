(** Initial values, the branches of calculateT, the effect of the code's eta functions. *)
From Coq Require Import String Reals ZArith Lra Lia.
From Coquelicot Require Import Coquelicot.
From Coq Require Import List Bool.
From Verif Require Import Base S_Eta P_Eta M_Eta P_Eta2 S_Poly S_Legendre S_Formulas M_Sectors M_TableData M_Core M_Formulas
  P_Terms P_Terms2 P_Formulas P_Formulas2 P_Formulas3 P_Formulas4 P_Accuracy.
Import ListNotations.
Open Scope R_scope.

(** ---- values at delta = 0 *)
Definition zero_check (q : nat) : bool :=
  is_zero (Te (if (q =? 0)%nat || (q =? 3)%nat then - DD else 0) 0 0 [] :: at0 (hd [] (acol q))) &&
  forallb (fun a => is_zero (at0 a)) (tl (acol q)).
Lemma zero_check_ok : forallb zero_check (seq 0 4) = true.
Proof. vm_cast_no_check (eq_refl true). Qed.

Theorem initial_value : forall q, (q < 4)%nat -> forall v h E,
  tent q (step_delta eta_exact v h E 0) = if (q =? 0)%nat || (q =? 3)%nat then 1 else 0.
Proof.
  intros q Hq v h E. rewrite step_delta_val by exact Hq. rewrite ysum_hsum.
  assert (zero_check q = true) as Hz.
  { pose proof zero_check_ok as H. rewrite forallb_forall in H. apply H, in_seq. lia. }
  unfold zero_check in Hz. apply andb_prop in Hz. destruct Hz as [H0 H1].
  pose proof (acol_length q) as HL. destruct (acol q) as [|a l]; [discriminate|]. cbn [hd tl] in H0, H1. clear HL.
  cbn [hsum].
  assert (forall i, hsum v h (v 0%nat - E) i l 0 = 0) as ->.
  { clear H0. induction l as [|b l IH]; intro i; [reflexivity|]. cbn [forallb] in H1. apply andb_prop in H1. destruct H1 as [Hb Hl].
    cbn [hsum]. rewrite (IH Hl), leval_at0, (is_zero_val v h 0 _ Hb). ring. }
  apply (is_zero_val v h 0) in H0. cbn [leval fold_right teval vprod] in H0. fold (leval v h 0 (at0 a)) in H0. rewrite <- leval_at0 in H0.
  assert (eta 0 ((v 0%nat - E) * (0 * 0)) = 1) as ->.
  { rewrite Rmult_0_l, Rmult_0_r, eta_at_0. simpl. field. }
  replace (leval v h 0 a) with (- (IZR (if (q =? 0)%nat || (q =? 3)%nat then - DD else 0))).
  2:{ set (k := IZR _) in *. simpl pow in H0. lra. }
  pose proof DD_nz as HD.
  destruct ((q =? 0)%nat || (q =? 3)%nat) eqn:Eq.
  - rewrite opp_IZR. destruct (Nat.eqb_spec q 2) as [->|]; [discriminate|]. field. exact HD.
  - destruct (q =? 2)%nat; field; exact HD.
Qed.

(** ---- the branches of calculateT *)
Lemma calculateT_small : forall etaf s E delta use_h, Rabs delta <= EPS12 -> calculateT etaf s E delta use_h = Tid.
Proof. intros. unfold calculateT. rewrite (proj2 (Rleb_true _ _) H). reflexivity. Qed.
Lemma calculateT_full : forall etaf s E delta, EPS12 < Rabs delta -> Rabs (delta - sh s) <= EPS12 ->
  calculateT etaf s E delta true = step_full etaf (fun k => nth k (spay s) 0) (sh s) E.
Proof.
  intros. unfold calculateT. rewrite (proj2 (Rleb_false _ _) H), (proj2 (Rleb_true _ _) H0). reflexivity.
Qed.
Lemma calculateT_partial : forall etaf s E delta use_h, EPS12 < Rabs delta ->
  (use_h = false \/ EPS12 < Rabs (delta - sh s)) ->
  calculateT etaf s E delta use_h = step_delta etaf (fun k => nth k (spay s) 0) (sh s) E delta.
Proof.
  intros etaf s E delta use_h H [->|H0]; unfold calculateT; rewrite (proj2 (Rleb_false _ _) H); [reflexivity|].
  rewrite (proj2 (Rleb_false _ _) H0), andb_false_r. reflexivity.
Qed.

(** ---- the eta functions of the code *)
Lemma eta_code_err : forall n z i, (2 <= n)%nat -> (i < n)%nat ->
  Rabs (nth i (eta_code n z) 0 - eta i z) <= if Rlt_dec (Rabs z) 100 then / 10 ^ 20 * / 61 ^ i else 0.
Proof.
  intros n z i Hn Hi. unfold eta_code. destruct (Rlt_dec (Rabs z) 100) as [H|H].
  - destruct (calculate_eta_small n z H) as (l & El & L & A). rewrite El. apply A, Hi.
  - destruct (calculate_eta_large n z (Rnot_lt_le _ _ H) Hn) as (l & El & L & A). rewrite El, A by exact Hi.
    rewrite Rminus_eq_0, Rabs_R0. lra.
Qed.
Lemma inv_61 : forall i, 0 < / 61 ^ i <= 1.
Proof.
  intro i. assert (1 <= 61 ^ i) by (apply pow_R1_Rle; lra). split; [apply Rinv_0_lt_compat; lra|].
  rewrite <- Rinv_1. apply Rinv_le_contravar; lra.
Qed.
Lemma rsum_abs : forall n f g, (forall i, (i < n)%nat -> Rabs (f i) <= g i) -> Rabs (rsum n f) <= rsum n g.
Proof.
  induction n; intros f g H; cbn [rsum]; [rewrite Rabs_R0; lra|].
  eapply Rle_trans; [apply Rabs_triang|]. apply Rplus_le_compat; [apply IHn; auto|apply H; lia].
Qed.
Lemma rsum_minus : forall n f g, rsum n f - rsum n g = rsum n (fun i => f i - g i).
Proof. induction n; intros; cbn [rsum]; [ring|]. rewrite <- IHn. ring. Qed.

Definition eta_err (z : R) : R := if Rlt_dec (Rabs z) 100 then / 10 ^ 20 else 0.
Lemma eta_code_err' : forall n z i, (2 <= n)%nat -> (i < n)%nat -> Rabs (nth i (eta_code n z) 0 - eta i z) <= eta_err z.
Proof.
  intros n z i Hn Hi. eapply Rle_trans; [apply eta_code_err; assumption|]. unfold eta_err.
  destruct (Rlt_dec (Rabs z) 100); [|lra]. pose proof (inv_61 i). assert (0 < / 10 ^ 20) by (apply Rinv_0_lt_compat, pow_lt; lra).
  rewrite <- (Rmult_1_r (/ 10 ^ 20)) at 2. apply Rmult_le_compat_l; lra.
Qed.

Lemma acc_eta_err : forall n base base' c z m b, (2 <= m)%nat -> (n <= m)%nat -> Rabs (base - base') <= b * eta_err z ->
  Rabs (acc_eta n base c (fun i => nth i (eta_code m z) 0) - acc_eta n base' c (fun i => nth i (eta_exact m z) 0))
  <= (b + rsum n (fun i => Rabs (c i))) * eta_err z.
Proof.
  intros n base base' c z m b Hm Hn Hb. rewrite !acc_eta_val.
  match goal with |- Rabs (?a + ?x - (?b0 + ?y)) <= _ => replace (a + x - (b0 + y)) with ((a - b0) + (x - y)) by ring end.
  rewrite rsum_minus. eapply Rle_trans; [apply Rabs_triang|]. rewrite Rmult_plus_distr_r. apply Rplus_le_compat; [exact Hb|].
  eapply Rle_trans; [apply (rsum_abs n _ (fun i => eta_err z * Rabs (c i)))|].
  - intros i Hi. rewrite <- Rmult_minus_distr_l, Rabs_mult, Rmult_comm. apply Rmult_le_compat_r; [apply Rabs_pos|].
    rewrite eta_exact_nth by lia. apply eta_code_err'; lia.
  - rewrite rsum_scal. lra.
Qed.

Theorem partial_eta_error : forall q, (q < 4)%nat -> forall v h E x,
  Rabs (tent q (step_delta eta_code v h E x) - tent q (step_delta eta_exact v h E x))
  <= ((if (q =? 2)%nat then Rabs ((v 0%nat - E) * x) else 0) + rsum 9 (fun i => Rabs (horner (tcoeff v h q i) x HMAX_delta)))
     * eta_err ((v 0%nat - E) * (x * x)).
Proof.
  intros q Hq v h E x. unfold step_delta.
  destruct q as [|[|[|[|q]]]]; [| | | |lia]; cbn [tent t00 t01 t10 t11 Nat.eqb]; apply acc_eta_err; try (unfold ETA_delta; lia).
  1,2,4: rewrite Rminus_eq_0, Rabs_R0; lra.
  rewrite <- Rmult_minus_distr_l, Rabs_mult. apply Rmult_le_compat_l; [apply Rabs_pos|].
  rewrite eta_exact_nth by (unfold ETA_delta; lia). apply eta_code_err'; unfold ETA_delta; lia.
Qed.
Theorem full_eta_error : forall q, (q < 4)%nat -> forall v h E,
  Rabs (tent q (step_full eta_code v h E) - tent q (step_full eta_exact v h E))
  <= ((if (q =? 2)%nat then Rabs ((v 0%nat - E) * h) else 0) + rsum 10 (fun i => Rabs (tcoeff_h v h q i)))
     * eta_err ((v 0%nat - E) * h * h).
Proof.
  intros q Hq v h E. unfold step_full.
  destruct q as [|[|[|[|q]]]]; [| | | |lia]; cbn [tent t00 t01 t10 t11 Nat.eqb]; apply acc_eta_err; try (unfold ETA_h; lia).
  1,2,4: rewrite Rminus_eq_0, Rabs_R0; lra.
  rewrite <- Rmult_minus_distr_l, Rabs_mult. apply Rmult_le_compat_l; [apply Rabs_pos|].
  rewrite eta_exact_nth by (unfold ETA_h; lia). apply eta_code_err'; unfold ETA_h; lia.
Qed.
