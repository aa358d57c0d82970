(** C08: calculateEta computes the eta functions. *)
From Coq Require Import String Reals ZArith Lra Lia.
From Coquelicot Require Import Coquelicot.
From Coq Require Import List Bool.
From Verif Require Import Base S_Eta P_Eta M_Eta P_Eta2.
Import ListNotations.
Open Scope R_scope.

(** For every real Z and every component count: n components are returned; for |Z| < 100 each is within
    10^-20 (indeed 10^-20 / 61^i) of the power series eta_i(Z); for |Z| >= 100 each is exact. *)
Theorem C08_eta_accurate : forall (n : nat) (z : R), (2 <= n)%nat ->
  exists l, calculate_eta n z = Ret l /\ List.length l = n /\
    (forall i, (i < n)%nat -> Rabs z < 100 -> Rabs (nth i l 0 - eta i z) <= / 10 ^ 20 * / 61 ^ i) /\
    (forall i, (i < n)%nat -> 100 <= Rabs z -> nth i l 0 = eta i z).
Proof.
  intros n z Hn. destruct (Rlt_le_dec (Rabs z) 100) as [H|H].
  - destruct (calculate_eta_small n z H) as (l & E & L & A). exists l. repeat split; auto. intros; lra.
  - destruct (calculate_eta_large n z H Hn) as (l & E & L & A). exists l. repeat split; auto. intros; lra.
Qed.

(** with one component the small branch works as well, the large branch writes outside the array *)
Theorem C08_eta_small_every_count : forall (n : nat) (z : R), Rabs z < 100 ->
  exists l, calculate_eta n z = Ret l /\ List.length l = n /\
    forall i, (i < n)%nat -> Rabs (nth i l 0 - eta i z) <= / 10 ^ 20 * / 61 ^ i.
Proof. exact calculate_eta_small. Qed.
Theorem C08_eta_one_component_large : forall z, 100 <= Rabs z ->
  calculate_eta 1 z = UB "calculateEta: eta[1] with n < 2".
Proof. intros z H. unfold calculate_eta. rewrite (proj2 (Rltb_false _ _) H). reflexivity. Qed.

(** the vectorised overload: column c is the result for Z[c] *)
Theorem C08_eta_columns : forall n zs, (2 <= n)%nat ->
  exists cs, calculate_eta_columns n zs = Ret cs /\ List.length cs = List.length zs /\
    forall c i, (c < List.length zs)%nat -> (i < n)%nat ->
      Rabs (nth i (nth c cs []) 0 - eta i (nth c zs 0)) <= / 10 ^ 20 * / 61 ^ i.
Proof.
  intros n zs Hn. induction zs as [|z zs IH].
  - exists []. repeat split. intros c i Hc. simpl in Hc. lia.
  - destruct IH as (cs & E & L & A). destruct (C08_eta_accurate n z Hn) as (l & El & Ll & As & Al).
    exists (l :: cs). cbn [calculate_eta_columns]. rewrite El. cbn [bind]. rewrite E. cbn [bind].
    repeat split; [cbn [List.length]; lia|]. intros [|c] i Hc Hi; cbn [nth].
    + destruct (Rlt_le_dec (Rabs z) 100) as [H|H]; [auto|].
      rewrite Al by auto. rewrite Rminus_eq_0, Rabs_R0.
      apply Rmult_le_pos; left; apply Rinv_0_lt_compat, pow_lt; lra.
    + apply A; [simpl in Hc; lia|exact Hi].
Qed.

(** The power series are the functions of the literature: closed forms of the first two, the three term
    recurrence, and the derivative rule; each eta_i is positive for Z >= 0 (not a trivial specification). *)
Theorem C08_eta_closed_forms : forall x,
  eta 0 (x ^ 2) = cosh x /\ x * eta 1 (x ^ 2) = sinh x /\
  eta 0 (- x ^ 2) = cos x /\ x * eta 1 (- x ^ 2) = sin x.
Proof. intro x. repeat split; [apply eta0_cosh|apply eta1_sinh|apply eta0_cos|apply eta1_sin]. Qed.
Theorem C08_eta_recurrence : forall i z, z * eta (S (S i)) z = eta i z - (2 * INR i + 1) * eta (S i) z.
Proof. intros. rewrite (eta_rec i z). ring. Qed.
Theorem C08_eta_derivative : forall i z, is_derive (eta i) z (eta (S i) z / 2).
Proof. exact eta_derive. Qed.

(** Non-vacuity *)
Example C08_nine_components : exists l, calculate_eta 9 (PI ^ 2) = Ret l /\ List.length l = 9%nat /\
  Rabs (nth 0 l 0 - cosh PI) <= / 10 ^ 20.
Proof.
  destruct (C08_eta_accurate 9 (PI ^ 2) ltac:(lia)) as (l & E & L & A & _). exists l. repeat split; auto.
  rewrite <- eta0_cosh. eapply Rle_trans; [apply A; [lia|]|right; simpl (61 ^ 0); rewrite Rinv_1; ring].
  rewrite Rabs_pos_eq by (pose proof PI_RGT_0; nra). pose proof PI_4; pose proof PI_RGT_0. nra.
Qed.
Example C08_large_positive : exists l, calculate_eta 10 (20 ^ 2) = Ret l /\ nth 0 l 0 = cosh 20 /\ nth 9 l 0 = eta 9 (20 ^ 2).
Proof.
  destruct (C08_eta_accurate 10 (20 ^ 2) ltac:(lia)) as (l & E & L & _ & A). exists l. split; [exact E|].
  assert (100 <= Rabs (20 ^ 2)) by (rewrite Rabs_pos_eq; lra). rewrite <- eta0_cosh. split; apply A; auto; lia.
Qed.
Example C08_at_zero : forall i, eta i 0 = / odd_dfact i.
Proof. exact eta_at_0. Qed.

Print Assumptions C08_eta_accurate.
Print Assumptions C08_eta_columns.
Print Assumptions C08_eta_closed_forms.
Print Assumptions C08_eta_derivative.
