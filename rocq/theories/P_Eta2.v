(** calculateEta against the specification of eta_i. *)
From Coq Require Import String Reals ZArith Lra Lia.
From Coquelicot Require Import Coquelicot.
From Coq Require Import List Bool.
From Verif Require Import Base S_Eta P_Eta M_Eta.
Import ListNotations.
Open Scope R_scope.

(** the first 30 terms *)
Definition psum (i : nat) (z : R) (q : nat) : R := sum_n (fun j => eta_coef i j * z ^ j) q.
Definition tail (i : nat) (z : R) : R := eta i z - psum i z 29.

Lemma psum_S : forall i z q, psum i z (S q) = psum i z q + eta_coef i (S q) * z ^ (S q).
Proof. intros. unfold psum. rewrite sum_Sn. reflexivity. Qed.
Lemma psum_0 : forall i z, psum i z 0 = eta_coef i 0.
Proof. intros. unfold psum. rewrite sum_O. simpl. ring. Qed.

Lemma psum_rec : forall i z q,
  psum i z (S q) = (2 * INR i + 1) * psum (S i) z (S q) + z * psum (S (S i)) z q.
Proof.
  intros i z q. induction q.
  - rewrite !psum_S, !psum_0, eta_coef_rec0, eta_coef_rec. simpl. ring.
  - rewrite psum_S, IHq, (psum_S (S i) z (S q)), (psum_S (S (S i)) z q), (eta_coef_rec i (S q)). simpl. ring.
Qed.

Lemma tail_rec : forall i z,
  tail i z = (2 * INR i + 1) * tail (S i) z + z * tail (S (S i)) z + eta_coef (S (S i)) 29 * z ^ 30.
Proof.
  intros. unfold tail. rewrite (eta_rec i z), (psum_rec i z 28), (psum_S (S (S i)) z 28).
  change (z ^ 30) with (z * z ^ 29). ring.
Qed.

Lemma eta_series : forall i z, is_series (fun q => eta_coef i q * z ^ q) (eta i z).
Proof.
  intros. pose proof (PSeries_correct _ _ (eta_ex i z)) as Hs. unfold is_pseries in Hs.
  eapply is_series_ext; [|exact Hs]. intro n. cbv beta.
  match goal with |- scal ?p ?c = _ => change (p * c = eta_coef i n * z ^ n); replace p with (z ^ n) by (symmetry; apply pow_n_pow) end.
  ring.
Qed.

Lemma tail_series : forall i z, is_series (fun k => eta_coef i (30 + k) * z ^ (30 + k)) (tail i z).
Proof.
  intros. unfold tail, psum.
  apply (is_series_incr_n (fun q => eta_coef i q * z ^ q) 30 (eta i z - sum_n (fun j => eta_coef i j * z ^ j) 29)); [lia|].
  match goal with |- is_series _ ?l => replace l with (eta i z) end; [apply eta_series|].
  change (pred 30) with 29%nat. set (S29 := sum_n _ 29). change (eta i z = (eta i z - S29) + S29). ring.
Qed.

Lemma ex_tail : forall i z, ex_series (fun k => eta_coef i (30 + k) * z ^ (30 + k)).
Proof. intros. eexists. apply tail_series. Qed.
Lemma tail_eq : forall i z, tail i z = Series (fun k => eta_coef i (30 + k) * z ^ (30 + k)).
Proof. intros. symmetry. apply is_series_unique, tail_series. Qed.

Lemma abs_term : forall i z k, Rabs (eta_coef i k * z ^ k) = eta_coef i k * (Rabs z) ^ k.
Proof. intros. rewrite Rabs_mult, <- RPow_abs, (Rabs_pos_eq (eta_coef i k)); [reflexivity|left; apply eta_coef_pos]. Qed.

Lemma tail_abs : forall i z, Rabs (tail i z) <= tail i (Rabs z).
Proof.
  intros. rewrite !tail_eq. eapply Rle_trans; [apply Series_Rabs|].
  - eapply ex_series_ext; [|apply (ex_tail i (Rabs z))]. intro k. cbv beta. symmetry. apply abs_term.
  - right. apply Series_ext. intro k. apply abs_term.
Qed.

Lemma tail_next : forall i x, 0 <= x -> tail (S i) x <= tail i x / 61.
Proof.
  intros i x Hx. rewrite !tail_eq. unfold Rdiv. rewrite Rmult_comm, <- Series_scal_l. apply Series_le.
  - intro k. pose proof (pow_le x (30 + k) Hx) as Hp. pose proof (eta_coef_pos i (30 + k)) as Hc.
    pose proof (eta_coef_pos (S i) (30 + k)) as Hc'. split; [apply Rmult_le_pos; lra|].
    rewrite eta_coef_next, <- Rmult_assoc. apply Rmult_le_compat_r; [lra|].
    unfold Rdiv. rewrite Rmult_comm. apply Rmult_le_compat_r; [lra|].
    apply Rinv_le_contravar; [lra|]. rewrite plus_INR, plus_INR. pose proof (pos_INR k). pose proof (pos_INR i).
    replace (INR 30) with 30 by (simpl; lra). lra.
  - apply (ex_series_scal (/ 61) _ (ex_tail i x)).
Qed.

(** numeric bound of the first tail *)
Fixpoint zodd (m : nat) : Z := match m with O => 1 | S k => zodd k * (2 * Z.of_nat k + 1) end.
Fixpoint zeven (m : nat) : Z := match m with O => 1 | S k => zeven k * (2 * Z.of_nat (S k)) end.
Lemma zodd_ok : forall m, odd_dfact m = IZR (zodd m).
Proof. induction m; [reflexivity|]. cbn [odd_dfact zodd]. rewrite mult_IZR, plus_IZR, mult_IZR, IHm, <- INR_IZR_INZ. reflexivity. Qed.
Lemma zeven_ok : forall m, even_dfact m = IZR (zeven m).
Proof. induction m; [reflexivity|]. cbn [even_dfact zeven]. rewrite !mult_IZR, IHm, <- INR_IZR_INZ. reflexivity. Qed.

Definition M30 : R := eta_coef 0 30 * 100 ^ 30.
Lemma M30_bound : M30 * / (1 - / 30) <= / 10 ^ 20.
Proof.
  unfold M30, eta_coef. rewrite zodd_ok, zeven_ok, <- mult_IZR.
  replace (/ (1 - / 30)) with (30 * / 29) by field.
  apply Rmult_le_reg_r with (10 ^ 20); [apply pow_lt; lra|].
  rewrite Rinv_l by (apply pow_nonzero; lra).
  apply Rmult_le_reg_r with (IZR (zeven 30 * zodd (30 + 0)) * 29).
  - apply Rmult_lt_0_compat; [apply IZR_lt; vm_compute; reflexivity|lra].
  - replace (/ IZR (zeven 30 * zodd (30 + 0)) * 100 ^ 30 * (30 * / 29) * 10 ^ 20 * (IZR (zeven 30 * zodd (30 + 0)) * 29))
      with (100 ^ 30 * 30 * 10 ^ 20).
    + rewrite Rmult_1_l. change (100 ^ 30) with (IZR 100 ^ 30). change (10 ^ 20) with (IZR 10 ^ 20).
      rewrite !pow_IZR, <- !mult_IZR. apply IZR_le. vm_compute. discriminate.
    + assert (IZR (zeven 30 * zodd (30 + 0)) <> 0) as Hz by (apply not_0_IZR; vm_compute; discriminate).
      generalize dependent (IZR (zeven 30 * zodd (30 + 0))). intros w Hz. generalize (100 ^ 30). generalize (10 ^ 20).
      intros. field. lra.
Qed.

Lemma tail0_term : forall x k, 0 <= x < 100 -> eta_coef 0 (30 + k) * x ^ (30 + k) <= M30 * (/ 30) ^ k.
Proof.
  intros x k Hx. induction k.
  - rewrite pow_O, Rmult_1_r. unfold M30. change (30 + 0)%nat with 30%nat.
    apply Rmult_le_compat_l; [left; apply eta_coef_pos|]. apply pow_incr. lra.
  - replace (30 + S k)%nat with (S (30 + k)) by lia. rewrite eta_coef_succ. rewrite <- !tech_pow_Rmult.
    assert (0 <= eta_coef 0 (30 + k) * x ^ (30 + k)) as Hp
      by (apply Rmult_le_pos; [left; apply eta_coef_pos|apply pow_le; lra]).
    set (A := eta_coef 0 (30 + k)) in *. set (B := x ^ (30 + k)) in *. 
    replace (M30 * (/ 30 * (/ 30) ^ k)) with ((M30 * (/ 30) ^ k) * / 30) by ring.
    pose proof (pos_INR k) as Hk.
    assert (30 <= INR (30 + k)) as H30 by (rewrite plus_INR; replace (INR 30) with 30 by (simpl; lra); lra).
    rewrite S_INR, Nat.add_0_r. set (u := INR (30 + k)) in *.
    assert (0 < 2 * (u + 1) * (2 * u + 1)) as Hd by (apply Rmult_lt_0_compat; lra).
    replace (A / (2 * (u + 1) * (2 * u + 1)) * (x * B)) with ((A * B) * (x / (2 * (u + 1) * (2 * u + 1)))) by (field; lra).
    apply Rmult_le_compat; [exact Hp| |exact IHk|].
    + apply Rmult_le_pos; [lra|]. left. apply Rinv_0_lt_compat, Hd.
    + apply Rmult_le_reg_r with (2 * (u + 1) * (2 * u + 1)); [exact Hd|].
      replace (x / (2 * (u + 1) * (2 * u + 1)) * (2 * (u + 1) * (2 * u + 1))) with x by (field; lra).
      nra.
Qed.

Lemma tail0_bound : forall x, 0 <= x < 100 -> tail 0 x <= / 10 ^ 20.
Proof.
  intros x Hx. rewrite tail_eq. eapply Rle_trans; [|apply M30_bound].
  assert (Rabs (/ 30) < 1) as Hr by (rewrite Rabs_pos_eq; lra).
  rewrite <- (Series_geom (/ 30) Hr), <- Series_scal_l. apply Series_le.
  - intro k. split; [|apply tail0_term, Hx].
    apply Rmult_le_pos; [left; apply eta_coef_pos|apply pow_le; lra].
  - apply (ex_series_scal M30 (fun n => (/ 30) ^ n)). apply ex_series_geom, Hr.
Qed.

Lemma tail_nonneg : forall i x, 0 <= x -> 0 <= tail i x.
Proof. intros. pose proof (tail_abs i x) as Ha. rewrite (Rabs_pos_eq x) in Ha by assumption. pose proof (Rabs_pos (tail i x)). lra. Qed.

Lemma tail_bound : forall i x, 0 <= x < 100 -> tail i x <= / 10 ^ 20 * / 61 ^ i.
Proof.
  intros i x Hx. induction i.
  - simpl (61 ^ 0). rewrite Rinv_1, Rmult_1_r. apply tail0_bound, Hx.
  - eapply Rle_trans; [apply tail_next; lra|]. change (61 ^ S i) with (61 * 61 ^ i). rewrite Rinv_mult. 
    generalize dependent (/ 10 ^ 20). intros w Hw. replace (w * (/ 61 * / 61 ^ i)) with (w * / 61 ^ i * / 61) by ring. unfold Rdiv.
    apply Rmult_le_compat_r; lra.
Qed.

(** the loops *)
Lemma w0_loop_spec : forall k j, w0_loop k j (odd_dfact j) = odd_dfact (k + j).
Proof.
  induction k; intro j; [reflexivity|]. cbn [w0_loop].
  replace (odd_dfact j * IZR (2 * Z.of_nat j + 1)) with (odd_dfact (S j)).
  - rewrite IHk. f_equal. lia.
  - cbn [odd_dfact]. rewrite plus_IZR, mult_IZR, <- INR_IZR_INZ. reflexivity.
Qed.

Lemma series_loop_spec : forall k q i z m,
  (q <= 29)%nat -> (29 - q < k)%nat -> m = (2 * Z.of_nat i - 1)%Z ->
  series_loop k z m (2 * Z.of_nat (S q)) (eta_coef i q * z ^ q) (psum i z q) = psum i z 29.
Proof.
  induction k; intros q i z m Hq Hk Hm; [lia|]. cbn [series_loop].
  destruct (Z.ltb_spec (2 * Z.of_nat (S q)) 60).
  - assert (eta_coef i q * z ^ q * (z / IZR (2 * Z.of_nat (S q) * (2 * Z.of_nat (S q) + m))) = eta_coef i (S q) * z ^ S q) as Hf.
    { rewrite eta_coef_succ, <- tech_pow_Rmult. subst m.
      replace (2 * Z.of_nat (S q) + (2 * Z.of_nat i - 1))%Z with (2 * Z.of_nat (q + i) + 1)%Z by lia.
      rewrite mult_IZR, plus_IZR, !mult_IZR, <- !INR_IZR_INZ.
      pose proof (pos_INR (q + i)). pose proof (pos_INR q). rewrite S_INR. field. split; lra. }
    rewrite Hf, <- psum_S. replace (2 * Z.of_nat (S q) + 2)%Z with (2 * Z.of_nat (S (S q)))%Z by lia.
    apply IHk; [lia|lia|exact Hm].
  - assert (q = 29%nat) as -> by lia. reflexivity.
Qed.

(** the backward recurrence keeps the errors within the tails *)
Lemma back_loop_spec : forall n z k cur next acc,
  (k <= n -> List.length acc = n - k)%nat ->
  Rabs (cur - eta k z) <= tail k (Rabs z) -> Rabs (next - eta (S k) z) <= tail (S k) (Rabs z) ->
  (n < k -> acc = [])%nat ->
  (forall j, (k <= j < n)%nat -> Rabs (nth (j - k) acc 0 - eta j z) <= tail j (Rabs z)) ->
  List.length (back_loop k n z cur next acc) = n /\
  forall j, (j < n)%nat -> Rabs (nth j (back_loop k n z cur next acc) 0 - eta j z) <= tail j (Rabs z).
Proof.
  intros n z. induction k; intros cur next acc Hlen Hc Hn He Hacc.
  - cbn [back_loop]. split; [rewrite Hlen; lia|]. intros j Hj. specialize (Hacc j). rewrite Nat.sub_0_r in Hacc. apply Hacc. lia.
  - cbn [back_loop].
    assert (IZR (2 * Z.of_nat k + 1) = 2 * INR k + 1) as Hk by (rewrite plus_IZR, mult_IZR, <- INR_IZR_INZ; reflexivity).
    rewrite Hk. set (cur' := (2 * INR k + 1) * cur + z * next).
    assert (Rabs (cur' - eta k z) <= tail k (Rabs z)) as Hcur'.
    { unfold cur'. rewrite (eta_rec k z), (tail_rec k (Rabs z)).
      replace ((2 * INR k + 1) * cur + z * next - ((2 * INR k + 1) * eta (S k) z + z * eta (S (S k)) z))
        with ((2 * INR k + 1) * (cur - eta (S k) z) + z * (next - eta (S (S k)) z)) by ring.
      eapply Rle_trans; [apply Rabs_triang|]. rewrite !Rabs_mult. pose proof (pos_INR k).
      rewrite (Rabs_pos_eq (2 * INR k + 1)) by lra.
      assert (0 <= eta_coef (S (S k)) 29 * Rabs z ^ 30)
        by (apply Rmult_le_pos; [left; apply eta_coef_pos|apply pow_le, Rabs_pos]).
      assert ((2 * INR k + 1) * Rabs (cur - eta (S k) z) <= (2 * INR k + 1) * tail (S k) (Rabs z))
        by (apply Rmult_le_compat_l; lra).
      assert (Rabs z * Rabs (next - eta (S (S k)) z) <= Rabs z * tail (S (S k)) (Rabs z))
        by (apply Rmult_le_compat_l; [apply Rabs_pos|lra]).
      lra. }
    apply IHk; [| exact Hcur'|exact Hc| |].
    + intro Hle. destruct (Nat.ltb_spec k n).
      * cbn [List.length]. destruct (Nat.leb_spec (S k) n); [rewrite Hlen; lia|lia].
      * assert (k = n) by lia. subst k. rewrite (He ltac:(lia)). simpl. lia.
    + intro Hlt. destruct (Nat.ltb_spec k n); [lia|]. apply He. lia.
    + intros j Hj. destruct (Nat.ltb_spec k n); [|lia].
      destruct (Nat.eq_dec j k) as [->|Hne].
      * rewrite Nat.sub_diag. exact Hcur'.
      * replace (j - k)%nat with (S (j - S k)) by lia. cbn [nth]. apply Hacc. lia.
Qed.

Lemma last_eta_gt : forall n z, (n < last_eta n z)%nat.
Proof.
  intros. unfold last_eta. cbv zeta. set (l := if (150 <? _)%Z then _ else _).
  destruct (Z.ltb_spec l (Z.of_nat n + 2)); lia.
Qed.

Lemma fwd_loop_spec : forall z, z <> 0 -> forall k i,
  let l := fwd_loop k (Z.of_nat i + 2) z (eta i z) (eta (S i) z) in
  List.length l = k /\ forall j, (j < k)%nat -> nth j l 0 = eta (i + 2 + j) z.
Proof.
  intros z Hz. induction k; intro i; cbv zeta; [split; [reflexivity|intros; lia]|].
  cbn [fwd_loop].
  assert ((eta i z - IZR (2 * (Z.of_nat i + 2) - 3) * eta (S i) z) / z = eta (S (S i)) z) as He.
  { replace (2 * (Z.of_nat i + 2) - 3)%Z with (2 * Z.of_nat i + 1)%Z by lia.
    rewrite plus_IZR, mult_IZR, <- INR_IZR_INZ, (eta_rec i z). field. exact Hz. }
  rewrite He. replace (Z.of_nat i + 2 + 1)%Z with (Z.of_nat (S i) + 2)%Z by lia.
  destruct (IHk (S i)) as [Hl Hj]. split; [cbn [List.length]; lia|].
  intros [|j] H; cbn [nth]; [f_equal; lia|]. rewrite Hj by lia. f_equal. lia.
Qed.

Theorem calculate_eta_small : forall n z, Rabs z < 100 ->
  exists l, calculate_eta n z = Ret l /\ List.length l = n /\
    forall i, (i < n)%nat -> Rabs (nth i l 0 - eta i z) <= / 10 ^ 20 * / 61 ^ i.
Proof.
  intros n z Hz. unfold calculate_eta. rewrite (proj2 (Rltb_true _ _) Hz). cbv zeta.
  set (l := last_eta n z). pose proof (last_eta_gt n z) as Hl. fold l in Hl.
  change (w0_loop l 0 1) with (w0_loop l 0 (odd_dfact 0)). rewrite w0_loop_spec, Nat.add_0_r.
  assert (forall i, 1 / odd_dfact i = eta_coef i 0) as H0.
  { intro i. unfold eta_coef. cbn [even_dfact Nat.add]. rewrite Rmult_1_l. unfold Rdiv. ring. }
  rewrite H0.
  assert (eta_coef l 0 / IZR (2 * Z.of_nat l + 1) = eta_coef (S l) 0) as H1.
  { rewrite eta_coef_next, plus_IZR, mult_IZR, <- INR_IZR_INZ. reflexivity. }
  rewrite H1.
  assert (forall i m, m = (2 * Z.of_nat i - 1)%Z ->
    series_loop 60 z m 2 (eta_coef i 0) (eta_coef i 0) = psum i z 29) as Hs.
  { intros i m Hm. rewrite <- (psum_0 i z) at 2. rewrite <- (Rmult_1_r (eta_coef i 0)).
    change 1 with (z ^ 0). change 2%Z with (2 * Z.of_nat 1)%Z. apply series_loop_spec; [lia|lia|exact Hm]. }
  rewrite (Hs l) by lia. rewrite (Hs (S l)) by lia.
  eexists. split; [reflexivity|].
  assert (forall i, Rabs (psum i z 29 - eta i z) <= tail i (Rabs z)) as Hp.
  { intro i. rewrite Rabs_minus_sym. apply tail_abs. }
  destruct (back_loop_spec n z l (psum l z 29) (psum (S l) z 29) []) as [HL HB].
  - intro. simpl. lia.
  - apply Hp.
  - apply Hp.
  - reflexivity.
  - intros. lia.
  - split; [exact HL|]. intros i Hi. eapply Rle_trans; [apply HB, Hi|]. apply tail_bound. split; [apply Rabs_pos|exact Hz].
Qed.

Theorem calculate_eta_large : forall n z, 100 <= Rabs z -> (2 <= n)%nat ->
  exists l, calculate_eta n z = Ret l /\ List.length l = n /\ forall i, (i < n)%nat -> nth i l 0 = eta i z.
Proof.
  intros n z Hz Hn. unfold calculate_eta. rewrite (proj2 (Rltb_false _ _) Hz).
  destruct (Nat.ltb_spec n 2); [lia|].
  assert (z <> 0) as Hz0 by (intros ->; rewrite Rabs_R0 in Hz; lra).
  match goal with |- context [match ?X with pair _ _ => _ end] => assert (X = (eta 0 z, eta 1 z)) as -> end.
  { destruct (Rltb 0 z) eqn:Hs.
    - apply Rltb_true in Hs. cbv zeta. assert (sqrt z ^ 2 = z) as Hq by (simpl; rewrite Rmult_1_r; apply sqrt_sqrt; lra).
      pose proof (sqrt_lt_R0 z Hs) as Hp. rewrite <- eta0_cosh, <- eta1_sinh, Hq. f_equal. field. lra.
    - apply Rltb_false in Hs. cbv zeta. assert (- sqrt (- z) ^ 2 = z) as Hq.
      { simpl. rewrite Rmult_1_r, sqrt_sqrt by lra. ring. }
      assert (0 < - z) as Hm by lra. pose proof (sqrt_lt_R0 _ Hm) as Hp.
      rewrite <- eta0_cos, <- eta1_sin, Hq. f_equal. field. lra. }
  eexists. split; [reflexivity|].
  destruct (fwd_loop_spec z Hz0 (n - 2) 0) as [HL HJ]. simpl (Z.of_nat 0 + 2)%Z in *.
  split; [cbn [List.length]; lia|].
  intros [|[|i]] Hi; [reflexivity|reflexivity|]. cbn [nth]. rewrite HJ by lia. reflexivity.
Qed.
