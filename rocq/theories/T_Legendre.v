(** C11: the Legendre tables and projections. *)
From Coq Require Import String ZArith QArith Qreals Reals Bool Lia Lra.
From Coquelicot Require Import Coquelicot.
From Coq Require Import List.
From Verif Require Import Base M_LegendreData M_Sectors M_Legendre M_Poly S_Poly P_Poly P_Eval S_Legendre P_Legendre.
Import ListNotations.
Open Scope R_scope.

(** The coefficients of the specification's polynomials are exactly the rows of the 16x16 table. *)
Theorem C11_table i t : (i < 16)%nat -> polyval (map IZR (nth i shifted_legendre [])) t = legendre_fun i t.
Proof.
  intros Hi. pose proof table_checked as A. unfold table_ok in A. rewrite forallb_forall in A. specialize (A i ltac:(apply in_seq; lia)).
  apply andb_prop in A as [A L]. apply andb_prop in A as [A1 A2]. unfold legendre_fun. rewrite <- (qeql_R _ _ A1).
  rewrite <- (firstn_skipn (S i) (nth i shifted_legendre [])) at 1. rewrite map_app.
  assert (E : map IZR (skipn (S i) (nth i shifted_legendre [])) = repeat 0 (length (skipn (S i) (nth i shifted_legendre [])))).
  { induction (skipn (S i) (nth i shifted_legendre [])) as [|z l IH]; auto. cbn [forallb] in A2. apply andb_prop in A2 as [B C].
    apply Z.eqb_eq in B. subst z. cbn [map length repeat]. now rewrite IH. }
  rewrite E, polyval_zeros. f_equal. rewrite firstn_map, map_map. apply map_ext. intros z. now rewrite Q2R_Z.
Qed.

(** They are orthogonal on [0,1], with squared norm 1/(2i+1), value 1 at 1, and degree i. *)
Fixpoint wsumQ (m : nat) (c : list Q) (d : list Q) : Q :=
  match c with [] => 0%Q | x :: r => Qred (x * mintQ m d + wsumQ (S m) r d) end.
Lemma wsumQ_R m c d : Q2R (wsumQ m c d) = wsum m (map Q2R c) (fun k => mint k (map Q2R d)).
Proof.
  revert m. induction c as [|x r IH]; intros m; cbn [wsumQ wsum map]; [unfold Q2R; simpl; lra|].
  now rewrite Q2R_red, Q2R_plus, Q2R_mult, IH, mintQ_R.
Qed.
Definition orth_check (i j : nat) : bool :=
  Qeq_bool (wsumQ 0 (shifted_leg i) (shifted_leg j)) (if (i =? j)%nat then 1 / inject_Z (Z.of_nat (2 * i + 1)) else 0)%Q.
Lemma orth_checks : forallb (fun i => forallb (orth_check i) (seq 0 18) && Qeq_bool (fold_right Qplus 0%Q (shifted_leg i)) 1%Q && (length (shifted_leg i) =? S i)%nat && negb (Qeq_bool (nth i (shifted_leg i) 0%Q) 0%Q)) (seq 0 18) = true.
Proof. vm_compute. reflexivity. Qed.
Lemma polyval_one c : polyval (map Q2R c) 1 = Q2R (fold_right Qplus 0%Q c).
Proof. induction c as [|x r IH]; cbn [map fold_right]; [rewrite polyval_nil; unfold Q2R; simpl; lra|]. rewrite polyval_cons, IH, Q2R_plus. ring. Qed.

Theorem C11_orthogonal i j : (i < 18)%nat -> (j < 18)%nat ->
  is_RInt (fun t => legendre_fun i t * legendre_fun j t) 0 1 (if (i =? j)%nat then 1 / INR (2 * i + 1) else 0) /\
  legendre_fun i 1 = 1 /\ length (shifted_leg i) = S i /\ Q2R (nth i (shifted_leg i) 0%Q) <> 0.
Proof.
  intros Hi Hj. pose proof orth_checks as A. rewrite forallb_forall in A. specialize (A i ltac:(apply in_seq; lia)).
  apply andb_prop in A as [A A4]. apply andb_prop in A as [A A3]. apply andb_prop in A as [A1 A2].
  rewrite forallb_forall in A1. specialize (A1 j ltac:(apply in_seq; lia)). unfold orth_check in A1.
  apply Qeq_bool_iff, Qeq_eqR in A1, A2. repeat split.
  - pose proof (prod_RInt 0 (map Q2R (shifted_leg i)) (map Q2R (shifted_leg j))) as K. rewrite <- wsumQ_R, A1 in K.
    evar_last.
    + refine (is_RInt_ext _ _ _ _ _ _ K). intros t _. unfold legendre_fun. rewrite pow_O. now rewrite Rmult_1_l.
    + destruct (i =? j)%nat; [|unfold Q2R; simpl; lra]. rewrite Q2R_div, Q2R_Z, <- INR_IZR_INZ by (unfold Qeq, inject_Z; cbn; lia).
      f_equal. unfold Q2R; simpl; lra.
  - unfold legendre_fun. rewrite polyval_one, A2. unfold Q2R; simpl; lra.
  - now apply Nat.eqb_eq.
  - intros E. destruct (Qeq_bool (nth i (shifted_leg i) 0%Q) 0%Q) eqn:F; [discriminate|]. apply Qeq_bool_neq in F. apply F.
    apply eqR_Qeq. rewrite E. unfold Q2R; simpl; lra.
Qed.

(** Tolerances, relative to the sum of the absolute coefficients. *)
Definition table_tol (n : nat) : R := if (n <=? 12)%nat then 17 / 10 ^ 18 else if (n <=? 16)%nat then 12 / 10 ^ 16 else 72 / 10 ^ 16.
Lemma tol_R n : IZR (tol n) / 10 ^ 19 = table_tol n.
Proof. unfold tol, table_tol. destruct (n <=? 12)%nat; [lra|]. destruct (n <=? 16)%nat; lra. Qed.

Lemma leg_pow_R h i : leg_pow (h : R) i = h ^ i.
Proof. induction i as [|i IH]; cbn [leg_pow pow]; auto. rewrite IH. apply Rmult_comm. Qed.
Lemma nth_coeffs n (f : R -> R) a b i : (i < n)%nat -> nth i (getCoefficients n f a b) 0 = integrate false n f a b i / ((b - a) / 2) ^ i.
Proof.
  intros Hi. unfold getCoefficients.
  rewrite (nth_indep _ 0 ((fun i => sdiv (integrate false n f a b i) (leg_pow (leg_h a b) i)) 0%nat)) by (rewrite map_length, seq_length; auto).
  rewrite (map_nth (fun i => sdiv (integrate false n f a b i) (leg_pow (leg_h a b) i)) (seq 0 n) 0%nat i). rewrite seq_nth by auto.
  cbn [Nat.add]. rewrite leg_pow_R. reflexivity.
Qed.

(** The coefficients v_0, v_1, ... computed with n points for a polynomial f of degree < n on [a, b]:
    (b - a)^i v_i is the i-th coefficient of the orthogonal projection of f, up to the rounding of the
    decimal tables. *)
Theorem C11_coefficients n c a b i : (1 <= n <= 18)%nat -> (i < n)%nat -> (length c <= n)%nat -> a <> b ->
  let f := fun x => polyval c ((x - a) / (b - a)) in
  Rabs ((b - a) ^ i * nth i (getCoefficients n f a b) 0 - projection i (polyval c)) <= table_tol n * norm1 c.
Proof.
  intros Hn Hi Hc N f. rewrite nth_coeffs by auto. unfold f. rewrite integrate_poly by auto. rewrite projection_poly.
  assert (Eb : forall W, (b - a) ^ i * (W / ((b - a) / 2) ^ i) = 2 ^ i * W).
  { intros W. unfold Rdiv at 2. rewrite Rpow_mult_distr, pow_inv. field. split; apply pow_nonzero; lra. }
  rewrite Eb, wsum_scale, wsum_minus, <- tol_R. apply wsum_bound. intros k Hk. apply dev_bound; auto. lia.
Qed.

Lemma fold_left_sum {A} (l : list A) (p : A -> bool) (g : A -> R) acc :
  fold_left (fun acc i => if p i then acc + g i else acc) l acc = acc + sumR (map (fun i => if p i then g i else 0) l).
Proof. revert acc. induction l as [|x l IH]; intros acc; simpl; [lra|]. rewrite IH. destruct (p x); lra. Qed.
Lemma sum_exchange {A B} (g : A -> B -> R) la lb : sumR (map (fun a => sumR (map (g a) lb)) la) = sumR (map (fun b => sumR (map (fun a => g a b) la)) lb).
Proof.
  induction la as [|a la IH]; simpl.
  - induction lb; simpl; auto. rewrite <- IHlb. lra.
  - rewrite IH. rewrite <- sumR_map_add. auto.
Qed.
Lemma polyval_seq (c : nat -> R) n t : polyval (map c (seq 0 n)) t = sumR (map (fun j => c j * t ^ j) (seq 0 n)).
Proof. rewrite fval_list. reflexivity. Qed.

(** asPolynomial is the Legendre series with the computed coefficients. *)
Theorem C11_series n f a b t : (1 <= n <= 16)%nat ->
  peval (asPolynomial n f a b) t = sumR (map (fun i => (b - a) ^ i * nth i (getCoefficients n f a b) 0 * legendre_fun i t) (seq 0 n)).
Proof.
  intros Hn. rewrite peval_spec.
  2:{ unfold asPolynomial. destruct n; [lia|]. discriminate. }
  unfold asPolynomial. rewrite polyval_seq.
  transitivity (sumR (map (fun j => sumR (map (fun i => (if (j <=? i)%nat then (b - a) ^ i * leg_entry i j * nth i (getCoefficients n f a b) 0 else 0) * t ^ j) (seq 0 n))) (seq 0 n))).
  { apply sumR_ext. intros j _. cbv beta zeta.
    rewrite (fold_left_sum (seq 0 n) (fun i => (j <=? i)%nat) (fun i => leg_pow (2 * leg_h a b) i * leg_entry i j * nth i (getCoefficients n f a b) 0)).
    change (sofZ 0) with 0. rewrite Rplus_0_l.
    rewrite <- (sumR_mult _ (t ^ j)), map_map. apply sumR_ext. intros i _. destruct (j <=? i)%nat; auto.
    rewrite leg_pow_R. unfold leg_h. cbn [sdiv ssub Scalar_R sofZ]. replace (2 * ((b - a) / 2)) with (b - a) by field. ring. }
  rewrite sum_exchange. apply sumR_ext. intros i Hi. apply in_seq in Hi.
  assert (G : legendre_fun i t = sumR (map (fun j => (if (j <=? i)%nat then leg_entry i j else 0) * t ^ j) (seq 0 n))).
  { rewrite <- C11_table by lia. pose proof table_checked as A. unfold table_ok in A. rewrite forallb_forall in A. specialize (A i ltac:(apply in_seq; lia)).
    apply andb_prop in A as [A L]. apply andb_prop in A as [_ A2]. apply Nat.eqb_eq in L.
    assert (Z0 : forall j, (i < j)%nat -> nth j (nth i shifted_legendre []) 0%Z = 0%Z).
    { intros j Hj. rewrite <- (firstn_skipn (S i) (nth i shifted_legendre [])). 
      rewrite app_nth2; rewrite firstn_length, L; [|lia]. rewrite forallb_forall in A2.
      destruct (nth_in_or_default (j - Nat.min (S i) 16) (skipn (S i) (nth i shifted_legendre [])) 0%Z) as [K| ->]; auto.
      apply A2, Z.eqb_eq in K. auto. }
    unfold polyval. rewrite map_length, L.
    replace 16%nat with (n + (16 - n))%nat by lia. rewrite seq_app, map_app, sumR_app.
    assert (E0 : sumR (map (fun k => nth k (map IZR (nth i shifted_legendre [])) 0 * t ^ k) (seq (0 + n) (16 - n))) = 0).
    { apply (eq_trans (y := sumR (map (fun _ => 0) (seq (0 + n) (16 - n))))).
      - apply sumR_ext. intros k Hk. apply in_seq in Hk. rewrite (map_nth IZR (nth i shifted_legendre []) 0%Z k), Z0 by lia. lra.
      - induction (seq (0 + n) (16 - n)); simpl; lra. }
    rewrite E0, Rplus_0_r. apply sumR_ext. intros j Hj. f_equal.
    rewrite (map_nth IZR (nth i shifted_legendre []) 0%Z j). unfold leg_entry.
    destruct (Nat.leb_spec j i); [reflexivity|]. now rewrite Z0. }
  rewrite G. rewrite Rmult_comm with (r2 := sumR _), <- sumR_mult, map_map. apply sumR_ext. intros j _. destruct (j <=? i)%nat; ring.
Qed.

(** The polynomial built for a polynomial f of degree < n reproduces f on the whole interval. *)
Theorem C11_reproduce n c a b t : (1 <= n <= 16)%nat -> (length c <= n)%nat -> a <> b -> 0 <= t <= 1 ->
  let f := fun x => polyval c ((x - a) / (b - a)) in
  Rabs (peval (asPolynomial n f a b) t - f (a + t * (b - a))) <= INR n * table_tol n * norm1 c.
Proof.
  intros Hn Hc N Ht f. rewrite C11_series by auto.
  assert (Ef : f (a + t * (b - a)) = sumR (map (fun i => projection i (polyval c) * legendre_fun i t) (seq 0 n))).
  { unfold f. replace ((a + t * (b - a) - a) / (b - a)) with t by (field; lra). rewrite poly_wsum.
    rewrite (wsum_ext 0 c _ (fun m => sumR (map (fun i => INR (2 * i + 1) * mint m (map Q2R (shifted_leg i)) * legendre_fun i t) (seq 0 n)))).
    2:{ intros m Hm. apply mono_expand; lia. }
    rewrite <- (wsum_sum 0 c (seq 0 n) (fun i m => INR (2 * i + 1) * mint m (map Q2R (shifted_leg i)) * legendre_fun i t)).
    apply sumR_ext. intros i _. rewrite projection_poly. rewrite Rmult_comm, wsum_scale. apply wsum_ext. intros; ring. }
  rewrite Ef.
  assert (G : forall l, (forall i, In i l -> (i < n)%nat) ->
    Rabs (sumR (map (fun i => (b - a) ^ i * nth i (getCoefficients n f a b) 0 * legendre_fun i t) l) -
          sumR (map (fun i => projection i (polyval c) * legendre_fun i t) l)) <= INR (length l) * (table_tol n * norm1 c)).
  { induction l as [|i l IH]; intros Hl; [simpl; rewrite Rminus_0_r, Rabs_R0; lra|].
    cbn [map length]. rewrite S_INR. 
    match goal with |- Rabs (sumR (?x :: ?L) - sumR (?y :: ?M)) <= _ => change (Rabs ((x + sumR L) - (y + sumR M)) <= (INR (length l) + 1) * (table_tol n * norm1 c));
      replace ((x + sumR L) - (y + sumR M)) with ((x - y) + (sumR L - sumR M)) by ring end.
    eapply Rle_trans; [apply Rabs_triang|]. rewrite Rmult_plus_distr_r, Rmult_1_l, Rplus_comm. apply Rplus_le_compat; [apply IH; intros; apply Hl; simpl; auto|].
    rewrite <- Rmult_minus_distr_r, Rabs_mult. pose proof (C11_coefficients n c a b i ltac:(lia) (Hl i (or_introl eq_refl)) Hc N) as K. cbv zeta in K. fold f in K.
    pose proof (legendre_bound i t ltac:(pose proof (Hl i (or_introl eq_refl)); lia) Ht). 
    rewrite <- (Rmult_1_r (table_tol n * norm1 c)). apply Rmult_le_compat; auto; apply Rabs_pos. }
  pose proof (G (seq 0 n)) as K. rewrite seq_length in K. rewrite Rmult_assoc. apply K. intros i Hi. apply in_seq in Hi. lia.
Qed.

(** Instance: a cubic on [2, 5] with the 4-point formula. *)
Example C11_instance : let f := fun x => polyval [1; -2; 0; 7] ((x - 2) / (5 - 2)) in
  Rabs (peval (asPolynomial 4 f 2 5) (1/3) - f 3) <= 4 * (17 / 10 ^ 18) * 10.
Proof.
  pose proof (C11_reproduce 4 [1; -2; 0; 7] 2 5 (1/3) ltac:(lia) ltac:(simpl; lia) ltac:(lra) ltac:(lra)) as K. cbv zeta in K |- *.
  replace (2 + 1 / 3 * (5 - 2)) with 3 in K by field. 
  replace (INR 4 * table_tol 4 * norm1 [1; -2; 0; 7]) with (4 * (17 / 10 ^ 18) * 10) in K; auto.
  unfold table_tol, norm1. cbn [Nat.leb map sumR fold_right INR]. rewrite !(Rabs_right 1), (Rabs_right 0), (Rabs_right 7), (Rabs_left (-2)) by lra. ring.
Qed.

Print Assumptions C11_table.
Print Assumptions C11_orthogonal.
Print Assumptions C11_coefficients.
Print Assumptions C11_reproduce.
