(** The eta functions: convergence, recurrence, derivative, closed forms of eta_0 and eta_1. *)
From Coq Require Import Reals Lra Lia.
From Coquelicot Require Import Coquelicot.
From Verif Require Import S_Eta.
Open Scope R_scope.

Lemma odd_dfact_pos : forall m, 0 < odd_dfact m.
Proof. induction m; cbn [odd_dfact]; [lra|]. pose proof (pos_INR m). apply Rmult_lt_0_compat; lra. Qed.
Lemma even_dfact_pos : forall m, 0 < even_dfact m.
Proof. induction m; cbn [even_dfact]; [lra|]. pose proof (pos_INR m). rewrite S_INR. apply Rmult_lt_0_compat; lra. Qed.
Lemma eta_coef_pos : forall i q, 0 < eta_coef i q.
Proof.
  intros. unfold eta_coef. apply Rinv_0_lt_compat, Rmult_lt_0_compat; [apply even_dfact_pos|apply odd_dfact_pos].
Qed.

Lemma eta_coef_succ : forall i q,
  eta_coef i (S q) = eta_coef i q / ((2 * INR (S q)) * (2 * INR (q + i) + 1)).
Proof.
  intros. unfold eta_coef. cbn [even_dfact odd_dfact Nat.add].
  pose proof (even_dfact_pos q). pose proof (odd_dfact_pos (q + i)). pose proof (pos_INR (q + i)). pose proof (pos_INR q).
  rewrite S_INR. field. repeat split; lra.
Qed.

(** c_{q+1,i} (q+1) = c_{q,i+1} / 2 *)
Lemma eta_coef_derive : forall i q, INR (S q) * eta_coef i (S q) = eta_coef (S i) q / 2.
Proof.
  intros. unfold eta_coef. cbn [even_dfact odd_dfact Nat.add]. replace (q + S i)%nat with (S (q + i)) by lia.
  cbn [odd_dfact].
  pose proof (even_dfact_pos q). pose proof (odd_dfact_pos (q + i)). pose proof (pos_INR (q + i)). pose proof (pos_INR q).
  rewrite S_INR. field. repeat split; lra.
Qed.

(** c_{q+1,i} = (2i+1) c_{q+1,i+1} + c_{q,i+2} *)
Lemma eta_coef_rec : forall i q,
  eta_coef i (S q) = (2 * INR i + 1) * eta_coef (S i) (S q) + eta_coef (S (S i)) q.
Proof.
  intros. unfold eta_coef.
  replace (S q + S i)%nat with (S (S (q + i))) by lia. replace (q + S (S i))%nat with (S (S (q + i))) by lia.
  cbn [even_dfact odd_dfact Nat.add].
  pose proof (even_dfact_pos q). pose proof (odd_dfact_pos (q + i)). pose proof (pos_INR (q + i)). pose proof (pos_INR q).
  pose proof (pos_INR i). rewrite !S_INR. rewrite plus_INR in *. field. repeat split; lra.
Qed.
Lemma eta_coef_rec0 : forall i, eta_coef i 0 = (2 * INR i + 1) * eta_coef (S i) 0.
Proof.
  intros. unfold eta_coef. cbn [even_dfact odd_dfact Nat.add].
  pose proof (odd_dfact_pos i). pose proof (pos_INR i). field. split; lra.
Qed.

(** c_{q,i+1} = c_{q,i} / (2q+2i+1) *)
Lemma eta_coef_next : forall i q, eta_coef (S i) q = eta_coef i q / (2 * INR (q + i) + 1).
Proof.
  intros. unfold eta_coef. replace (q + S i)%nat with (S (q + i)) by lia. cbn [odd_dfact].
  pose proof (even_dfact_pos q). pose proof (odd_dfact_pos (q + i)). pose proof (pos_INR (q + i)).
  field. repeat split; lra.
Qed.

Lemma eta_radius : forall i, CV_radius (eta_coef i) = p_infty.
Proof.
  intro i. apply CV_radius_infinite_DAlembert.
  - intro n. pose proof (eta_coef_pos i n). lra.
  - apply is_lim_seq_le_le with (u := fun _ => 0) (w := fun n => / INR (S n)).
    + intro n. split; [apply Rabs_pos|].
      rewrite eta_coef_succ. pose proof (eta_coef_pos i n). pose proof (pos_INR (n + i)). pose proof (pos_INR n).
      replace (eta_coef i n / (2 * INR (S n) * (2 * INR (n + i) + 1)) / eta_coef i n)
        with (/ (2 * INR (S n) * (2 * INR (n + i) + 1))).
      2: { rewrite S_INR. field. repeat split; lra. }
      rewrite Rabs_pos_eq.
      * apply Rinv_le_contravar; [rewrite S_INR; lra|].
        rewrite <- (Rmult_1_r (INR (S n))) at 1. rewrite (Rmult_comm 2), Rmult_assoc.
        apply Rmult_le_compat_l; rewrite ?S_INR; lra.
      * left. apply Rinv_0_lt_compat. rewrite S_INR. apply Rmult_lt_0_compat; lra.
    + apply is_lim_seq_const.
    + apply (is_lim_seq_incr_1 (fun n => / INR n)). apply is_lim_seq_ext with (fun n => / INR n); [reflexivity|].
      evar_last. apply is_lim_seq_inv. apply is_lim_seq_INR. discriminate. reflexivity.
Qed.

Lemma eta_ex : forall i Z, ex_pseries (eta_coef i) Z.
Proof. intros. apply CV_radius_inside. rewrite eta_radius. exact I. Qed.

Lemma eta_derive : forall i Z, is_derive (eta i) Z (eta (S i) Z / 2).
Proof.
  intros. unfold eta. evar_last. apply is_derive_PSeries. rewrite eta_radius. exact I.
  unfold Rdiv. rewrite Rmult_comm, <- PSeries_scal. apply PSeries_ext. intro n.
  unfold PS_derive. rewrite eta_coef_derive. unfold PS_scal, scal; simpl; unfold mult; simpl. lra.
Qed.

(** eta_i = (2i+1) eta_{i+1} + Z eta_{i+2} *)
Lemma eta_rec : forall i Z, eta i Z = (2 * INR i + 1) * eta (S i) Z + Z * eta (S (S i)) Z.
Proof.
  intros. unfold eta. rewrite <- PSeries_scal, <- PSeries_incr_1, <- PSeries_plus.
  - apply PSeries_ext. intro n. unfold PS_plus, PS_scal, PS_incr_1, plus, scal, zero; simpl; unfold mult; simpl.
    destruct n; [rewrite Rplus_0_r; apply eta_coef_rec0|apply eta_coef_rec].
  - apply ex_pseries_scal; [apply Rmult_comm|apply eta_ex].
  - apply ex_pseries_incr_1, eta_ex.
Qed.

Lemma dfact_fact : forall q, even_dfact q * odd_dfact q = INR (fact (2 * q)).
Proof.
  induction q; [simpl; lra|].
  replace (2 * S q)%nat with (S (S (2 * q))) by lia. rewrite !fact_simpl, !mult_INR, <- IHq.
  cbn [even_dfact odd_dfact]. rewrite !S_INR, mult_INR. simpl (INR 2). ring.
Qed.
Lemma dfact_fact1 : forall q, even_dfact q * odd_dfact (S q) = INR (fact (2 * q + 1)).
Proof.
  intro q. replace (2 * q + 1)%nat with (S (2 * q)) by lia. rewrite fact_simpl, mult_INR, <- dfact_fact.
  cbn [odd_dfact]. rewrite S_INR, mult_INR. simpl (INR 2). ring.
Qed.
Lemma eta_coef_0 : forall q, eta_coef 0 q = / INR (fact (2 * q)).
Proof. intro. unfold eta_coef. rewrite Nat.add_0_r, dfact_fact. reflexivity. Qed.
Lemma eta_coef_1 : forall q, eta_coef 1 q = / INR (fact (2 * q + 1)).
Proof. intro. unfold eta_coef. rewrite Nat.add_1_r, dfact_fact1. reflexivity. Qed.

(** exp x = eta_0(x^2) + x eta_1(x^2) *)
Lemma exp_eta : forall x, exp x = eta 0 (x ^ 2) + x * eta 1 (x ^ 2).
Proof.
  intro x. rewrite exp_Reals. 
  rewrite (PSeries_odd_even (fun n => / INR (fact n))).
  - unfold eta. f_equal; [|f_equal]; apply PSeries_ext; intro; [rewrite eta_coef_0|rewrite eta_coef_1]; reflexivity.
  - eapply ex_pseries_ext; [intro; apply eta_coef_0|apply eta_ex].
  - eapply ex_pseries_ext; [intro; apply eta_coef_1|apply eta_ex].
Qed.

Lemma eta0_cosh : forall x, eta 0 (x ^ 2) = cosh x.
Proof.
  intro x. unfold cosh. rewrite (exp_eta x), (exp_eta (- x)). replace ((- x) ^ 2) with (x ^ 2) by ring. field.
Qed.
Lemma eta1_sinh : forall x, x * eta 1 (x ^ 2) = sinh x.
Proof.
  intro x. unfold sinh. rewrite (exp_eta x), (exp_eta (- x)). replace ((- x) ^ 2) with (x ^ 2) by ring. field.
Qed.
Lemma eta0_cos : forall x, eta 0 (- x ^ 2) = cos x.
Proof.
  intro x. unfold cos, eta. destruct (exist_cos (Rsqr x)) as [l Hl]. apply is_pseries_unique.
  unfold cos_in in Hl. apply is_series_Reals in Hl. unfold is_pseries.
  eapply is_series_ext; [|apply Hl]. intro n. cbv beta.
  match goal with |- ?a = scal ?p ?c => change (a = p * c); replace p with ((- x ^ 2) ^ n) by (symmetry; apply pow_n_pow) end. rewrite eta_coef_0. unfold cos_n.
  replace (Rsqr x) with (x ^ 2) by (unfold Rsqr; ring).
  replace (- x ^ 2) with ((-1) * x ^ 2) by ring. rewrite Rpow_mult_distr. unfold Rdiv. ring.
Qed.
Lemma eta1_sin : forall x, x * eta 1 (- x ^ 2) = sin x.
Proof.
  intro x. unfold sin, eta. destruct (exist_sin (Rsqr x)) as [l Hl]. f_equal. apply is_pseries_unique.
  unfold sin_in in Hl. apply is_series_Reals in Hl. unfold is_pseries.
  eapply is_series_ext; [|apply Hl]. intro n. cbv beta.
  match goal with |- ?a = scal ?p ?c => change (a = p * c); replace p with ((- x ^ 2) ^ n) by (symmetry; apply pow_n_pow) end. rewrite eta_coef_1. unfold sin_n.
  replace (Rsqr x) with (x ^ 2) by (unfold Rsqr; ring).
  replace (- x ^ 2) with ((-1) * x ^ 2) by ring. rewrite Rpow_mult_distr. unfold Rdiv. ring.
Qed.
Lemma eta_at_0 : forall i, eta i 0 = / odd_dfact i.
Proof. intro. unfold eta. rewrite PSeries_0. unfold eta_coef. simpl. f_equal. ring. Qed.
