(** C14, C15, C16, C59: the propagator of a sector. *)
From Coq Require Import String Reals ZArith Lra Lia.
From Coquelicot Require Import Coquelicot.
From Coq Require Import List Bool.
From Verif Require Import Base S_Eta P_Eta M_Eta S_Legendre S_Formulas M_Sectors M_TableData M_Core M_Formulas
  P_Terms P_Terms2 P_Formulas P_Formulas2 P_Formulas3 P_Formulas4 P_Accuracy P_Formulas5 P_Accuracy2 P_Accuracy3 P_Accuracy4 P_Formulas6 P_Exist.
Import ListNotations.
Open Scope R_scope.

(** ---- C14.  Column c of the partial-step matrix, as a function of delta, is the solution of y'' = (V - E) y up to
    a residual sum_i r_i(delta, h, v) eta_i(Z) whose coefficients r_i are polynomials (independent of the problem)
    all of whose monomials have total order >= 15 in delta and h. *)
Theorem C14_residual : forall c, (c < 2)%nat ->
  exists r : nat -> list monomial, (forall i m, In m (r i) -> (15 <= order m)%nat) /\
  forall v h E, h <> 0 -> exists y1 y2 : R -> R, forall x,
    is_derive (fun x => tent c (step_delta eta_exact v h E x)) x (y1 x) /\ is_derive y1 x (y2 x) /\
    y2 x = (sector_potential 13 v h x - E) * tent c (step_delta eta_exact v h E x)
           + rsum 9 (fun i => poly_val v h x (r i) * eta i ((v 0%nat - E) * (x * x))).
Proof. intros c Hc. exists (resid_polys c). split; [apply resid_polys_order|]. intros. apply column_residual; assumption. Qed.
(** the second row is the derivative of the first up to terms of total order >= 16 *)
Theorem C14_derivative_row : forall c, (c < 2)%nat ->
  exists r : nat -> list monomial, (forall i m, In m (r i) -> (16 <= order m)%nat) /\
  forall v h E x, is_derive (fun x => tent c (step_delta eta_exact v h E x)) x
    (tent (c + 2) (step_delta eta_exact v h E x) + rsum 9 (fun i => poly_val v h x (r i) * eta i ((v 0%nat - E) * (x * x)))).
Proof. intros c Hc. exists (der_polys c). split; [apply der_polys_order|]. intros. apply derivative_row, Hc. Qed.
(** the matrix is the identity for delta = 0 *)
Theorem C14_identity_at_zero : forall v h E, let T := step_delta eta_exact v h E 0 in
  t00 T = 1 /\ t01 T = 0 /\ t10 T = 0 /\ t11 T = 1.
Proof.
  intros v h E T. unfold T. pose proof (initial_value 0 ltac:(lia) v h E) as H0. pose proof (initial_value 1 ltac:(lia) v h E) as H1.
  pose proof (initial_value 2 ltac:(lia) v h E) as H2. pose proof (initial_value 3 ltac:(lia) v h E) as H3. auto.
Qed.
(** for a constant potential both formulas are exact *)
Theorem C14_constant_potential : forall v h E x, (forall k, (1 <= k <= 15)%nat -> v k = 0) ->
  let w := v 0%nat - E in let T := step_delta eta_exact v h E x in let F := step_full eta_exact v h E in
  (t00 T = eta 0 (w * (x * x)) /\ t01 T = x * eta 1 (w * (x * x)) /\ t10 T = w * x * eta 1 (w * (x * x)) /\ t11 T = eta 0 (w * (x * x))) /\
  (t00 F = eta 0 (w * (h * h)) /\ t01 F = h * eta 1 (w * (h * h)) /\ t10 F = w * h * eta 1 (w * (h * h)) /\ t11 F = eta 0 (w * (h * h))).
Proof.
  intros v h E x Hv w T F. unfold T, F, w.
  destruct (constant_exact 0 ltac:(lia) v h E Hv) as [A0 B0]. destruct (constant_exact 1 ltac:(lia) v h E Hv) as [A1 B1].
  destruct (constant_exact 2 ltac:(lia) v h E Hv) as [A2 B2]. destruct (constant_exact 3 ltac:(lia) v h E Hv) as [A3 B3].
  cbn [tent exact_const] in *. repeat split; auto.
Qed.
(** what the entry point computes: the three branches of calculateT (sector.cpp:55-78), and the effect of the
    computed eta functions: at most 10^-20 times the sum of the coefficients for |Z| < 100, none for |Z| >= 100 *)
Theorem C14_branches : forall etaf s E delta use_h, let v k := nth k (spay s) 0 in
  (Rabs delta <= / 10 ^ 12 -> calculateT etaf s E delta use_h = Tid) /\
  (/ 10 ^ 12 < Rabs delta -> Rabs (delta - sh s) <= / 10 ^ 12 -> calculateT etaf s E delta true = step_full etaf v (sh s) E) /\
  (/ 10 ^ 12 < Rabs delta -> use_h = false \/ / 10 ^ 12 < Rabs (delta - sh s) ->
     calculateT etaf s E delta use_h = step_delta etaf v (sh s) E delta).
Proof.
  intros. repeat split; intros; [apply calculateT_small|apply calculateT_full|apply calculateT_partial]; assumption.
Qed.
Theorem C14_eta_error : forall q, (q < 4)%nat -> forall v h E x,
  Rabs (tent q (step_delta eta_code v h E x) - tent q (step_delta eta_exact v h E x))
  <= ((if (q =? 2)%nat then Rabs ((v 0%nat - E) * x) else 0) + rsum 9 (fun i => Rabs (horner (tcoeff v h q i) x 17)))
     * (if Rlt_dec (Rabs ((v 0%nat - E) * (x * x))) 100 then / 10 ^ 20 else 0).
Proof. exact partial_eta_error. Qed.

(** ---- C15.  At delta = h the two formulas differ by polynomial coefficients of order >= 17 only, except for the terms
    linear in v_14 of entry (1,0), which are of order >= 15. *)
Theorem C15_full_step : forall q, (q < 4)%nat ->
  exists r : nat -> list monomial,
  (forall i m, In m (r i) -> (17 <= order m)%nat \/ (q = 2%nat /\ m_vs m = [14%nat] /\ (15 <= order m)%nat)) /\
  forall v h E, tent q (step_full eta_exact v h E)
    = tent q (step_delta eta_exact v h E h) + rsum 10 (fun i => poly_val v h h (r i) * eta i ((v 0%nat - E) * (h * h))).
Proof. intros q Hq. exists (full_polys q). split; [apply full_polys_order|]. intros. apply full_vs_partial, Hq. Qed.

(** ---- C16.  The dT part is the derivative with respect to E of the T part, except that the derivative of the last eta
    term is left out; that term has a coefficient of order >= 15 (partial step), >= 17 (full step). *)
Theorem C16_partial_step : forall q, (q < 4)%nat ->
  exists p : list monomial, (forall m, In m p -> (15 <= order m)%nat) /\
  forall v h E x, is_derive (fun E => tent q (step_delta eta_exact v h E x)) E
    (dent q (step_delta eta_exact v h E x) - poly_val v h x p * (x * x * eta 9 ((v 0%nat - E) * (x * x)) / 2)).
Proof.
  intros q Hq. exists (drop_partial q). split; [intros m; apply (drop_order q m Hq)|]. intros. rewrite <- (proj1 (drop_val q v h x)).
  apply partial_dE, Hq.
Qed.
Theorem C16_full_step : forall q, (q < 4)%nat ->
  exists p : list monomial, (forall m, In m p -> (17 <= order m)%nat) /\
  forall v h E, is_derive (fun E => tent q (step_full eta_exact v h E)) E
    (dent q (step_full eta_exact v h E) - poly_val v h h p * (h * h * eta 10 ((v 0%nat - E) * (h * h)) / 2)).
Proof.
  intros q Hq. exists (drop_full q). split; [intros m; apply (drop_order q m Hq)|]. intros. rewrite <- (proj2 (drop_val q v h h)).
  apply full_dE, Hq.
Qed.
(** for a constant potential it is the exact derivative *)
Theorem C16_constant_potential : forall q, (q < 4)%nat -> forall v h E x, (forall k, (1 <= k <= 15)%nat -> v k = 0) ->
  is_derive (fun E => tent q (step_delta eta_exact v h E x)) E (dent q (step_delta eta_exact v h E x)).
Proof.
  intros q Hq v h E x Hv. pose proof (partial_dE q Hq v h E x) as H.
  assert (horner (tcoeff v h q 8) x HMAX_delta = 0) as E8.
  { apply (Rmult_eq_reg_l (IZR DD)); [|apply DD_nz]. rewrite <- acol_val by lia. rewrite leval_const; [|exact Hv|].
    - pose proof const_check as Hc. rewrite forallb_forall in Hc. specialize (Hc q ltac:(apply in_seq; lia)).
      rewrite forallb_forall in Hc. specialize (Hc 8%nat ltac:(apply in_seq; lia)). apply andb_prop in Hc. destruct Hc as [H1 _].
      apply (is_zero_val v h x) in H1. cbn [leval fold_right] in H1. rewrite teval_tsc in H1.
      assert (teval v h x (const_term q 8) = 0) as E0.
      { unfold const_term. cbn [Nat.eqb]. rewrite !andb_false_r. cbn [teval]. ring. }
      unfold leval. rewrite E0 in H1. lra.
    - pose proof (acol_good' q Hq) as Hg. rewrite forallb_forall in Hg. apply Hg, nth_In. rewrite acol_length. lia. }
  rewrite E8, Rmult_0_l, Rminus_0_r in H. exact H.
Qed.

(** ---- C59.  One-step accuracy, uniformly over all sectors with bounded coefficients: against every exact solution of
    y'' = (V - E) y on the sector, V the potential of degree 15 (degree 13) of the sector. *)
Theorem C59_partial_step : forall B W, 0 <= B -> 0 <= W -> exists K, 0 <= K /\
  forall v h E, (forall k, (1 <= k <= 15)%nat -> Rabs (v k) <= B) -> Rabs (v 0%nat - E) <= W -> 0 < h <= 1 ->
  forall z z', solves (sector_potential 15 v h) E h z z' ->
  forall x, 0 <= x <= h -> let T := step_delta eta_exact v h E x in
    Rabs (t00 T * z 0 + t01 T * z' 0 - z x) <= K * (Rabs (z 0) + Rabs (z' 0)) * h ^ 16 /\
    Rabs (t10 T * z 0 + t11 T * z' 0 - z' x) <= K * (Rabs (z 0) + Rabs (z' 0)) * h ^ 15.
Proof. exact (partial_error 15 (or_intror eq_refl)). Qed.
Theorem C59_partial_step_degree_13 : forall B W, 0 <= B -> 0 <= W -> exists K, 0 <= K /\
  forall v h E, (forall k, (1 <= k <= 15)%nat -> Rabs (v k) <= B) -> Rabs (v 0%nat - E) <= W -> 0 < h <= 1 ->
  forall z z', solves (sector_potential 13 v h) E h z z' ->
  forall x, 0 <= x <= h -> let T := step_delta eta_exact v h E x in
    Rabs (t00 T * z 0 + t01 T * z' 0 - z x) <= K * (Rabs (z 0) + Rabs (z' 0)) * h ^ 17 /\
    Rabs (t10 T * z 0 + t11 T * z' 0 - z' x) <= K * (Rabs (z 0) + Rabs (z' 0)) * h ^ 16.
Proof. exact (partial_error 13 (or_introl eq_refl)). Qed.
Theorem C59_full_step : forall B W, 0 <= B -> 0 <= W -> exists K, 0 <= K /\
  forall v h E, (forall k, (1 <= k <= 15)%nat -> Rabs (v k) <= B) -> Rabs (v 0%nat - E) <= W -> 0 < h <= 1 ->
  forall z z', solves (sector_potential 15 v h) E h z z' ->
  let T := step_full eta_exact v h E in
    Rabs (t00 T * z 0 + t01 T * z' 0 - z h) <= K * (Rabs (z 0) + Rabs (z' 0)) * h ^ 19 /\
    Rabs (t10 T * z 0 + t11 T * z' 0 - z' h) <= K * (Rabs (z 0) + Rabs (z' 0)) * h ^ 19.
Proof. exact full_error. Qed.
(** the entry point, with its thresholds and the computed eta functions *)
Theorem C59_calculateT : forall B W, 0 <= B -> 0 <= W -> exists K, 0 <= K /\
  forall (s : sector R (list R)) E, let v k := nth k (spay s) 0 in let h := sh s in
  (forall k, (1 <= k <= 15)%nat -> Rabs (v k) <= B) -> Rabs (v 0%nat - E) <= W -> 0 < h <= 1 ->
  forall z z', solves (sector_potential 15 v h) E h z z' ->
  forall delta use_h, 0 <= delta <= h -> let T := calculateT eta_code s E delta use_h in
    Rabs (t00 T * z 0 + t01 T * z' 0 - z delta) <= K * (Rabs (z 0) + Rabs (z' 0)) * (h ^ 16 + / 10 ^ 12) /\
    Rabs (t10 T * z 0 + t11 T * z' 0 - z' delta) <= K * (Rabs (z 0) + Rabs (z' 0)) * (h ^ 15 + / 10 ^ 12).
Proof. exact calculateT_error. Qed.
(** exact solutions exist for all initial values, so that the theorems above are about something *)
Theorem C59_solutions_exist : forall N v h E a b, exists z z', solves (sector_potential N v h) E h z z' /\ z 0 = a /\ z' 0 = b.
Proof. exact solution_exists. Qed.

(** Non-vacuity: a sector of length 1/2 with a genuinely varying potential *)
Example C59_instance : exists K, 0 <= K /\
  let s := mkSector 0 (1/2) Dfwd [1; 2; -1; 3] in
  exists z z', solves (sector_potential 15 (fun k => nth k (spay s) 0) (1/2)) 4 (1/2) z z' /\ z 0 = 1 /\ z' 0 = 5 /\
    let T := calculateT eta_code s 4 (1/2) true in
    Rabs (t00 T * 1 + t01 T * 5 - z (1/2)) <= K * 6 * ((1/2) ^ 16 + / 10 ^ 12).
Proof.
  destruct (C59_calculateT 3 3 ltac:(lra) ltac:(lra)) as (K & HK & H). exists K. split; [exact HK|]. intro s.
  assert (sh s = 1/2) as Hs by (unfold sh, s; simpl; lra).
  destruct (solution_exists 15 (fun k => nth k (spay s) 0) (1/2) 4 1 5) as (z & z' & Hz & H0 & H1). exists z, z'. split; [exact Hz|].
  split; [exact H0|]. split; [exact H1|]. intro T. specialize (H s 4). cbv zeta in H. rewrite Hs in H.
  destruct (H) with (z := z) (z' := z') (delta := 1/2) (use_h := true) as [G _].
  - intros k Hk. unfold s. simpl spay. do 4 (destruct k as [|k]; [simpl; try lia; apply Rabs_le; lra|]).
    simpl. destruct k; rewrite Rabs_R0; lra.
  - unfold s. simpl. apply Rabs_le. lra.
  - lra.
  - exact Hz.
  - lra.
  - rewrite H0, H1, (Rabs_pos_eq 1), (Rabs_pos_eq 5) in G by lra. replace (1 + 5) with 6 in G by ring. exact G.
Qed.
(** the residual is not identically zero: the truncation is real *)
Fixpoint zvprod (v : nat -> Z) (l : list nat) : Z := match l with [] => 1%Z | k :: r => (v k * zvprod v r)%Z end.
Definition zeval (v : nat -> Z) (h x : Z) (l : list term) : Z :=
  fold_right (fun t acc => (match t with Te c a b m => c * Z.pow x (Z.of_nat a) * Z.pow h (Z.of_nat b) * zvprod v m end) + acc)%Z 0%Z l.
Lemma zeval_val : forall v h x l, leval (fun k => IZR (v k)) (IZR h) (IZR x) l = IZR (zeval v h x l).
Proof.
  intros v h x l. induction l as [|[c a b m] l IH]; [reflexivity|]. cbn [leval zeval fold_right teval].
  fold (leval (fun k => IZR (v k)) (IZR h) (IZR x) l). fold (zeval v h x l). rewrite IH, plus_IZR, !mult_IZR, <- !pow_IZR.
  f_equal. f_equal. induction m as [|k m IHm]; [reflexivity|]. cbn [vprod zvprod]. rewrite IHm, mult_IZR. reflexivity.
Qed.
Lemma resid_value_nz : Z.eqb (zeval (fun _ => 1%Z) 2 1 (nth 2 (resid_highs 15 legD (seq 1 13) 0 [] (acol 0)) [])) 0 = false.
Proof. vm_cast_no_check (eq_refl false). Qed.
Lemma visible_gen : forall l, Z.eqb (zeval (fun _ => 1%Z) 2 1 l) 0 = false -> poly_val (fun _ => 1) 2 1 (map to_mono l) <> 0.
Proof.
  intros l Hz H. apply (f_equal (Rmult (IZR DD))) in H. rewrite to_mono_val, Rmult_0_r in H.
  pose proof (zeval_val (fun _ => 1%Z) 2 1 l) as E. change (leval (fun _ => 1) 2 1 l = IZR (zeval (fun _ => 1%Z) 2 1 l)) in E.
  rewrite H in E. apply eq_IZR in E. apply Z.eqb_neq in Hz. congruence.
Qed.
Example C14_truncation_visible : poly_val (fun _ => 1) 2 1 (resid_polys 0 2) <> 0.
Proof. unfold resid_polys, polys. apply visible_gen. exact resid_value_nz. Qed.

Print Assumptions C14_residual.
Print Assumptions C14_derivative_row.
Print Assumptions C15_full_step.
Print Assumptions C16_partial_step.
Print Assumptions C16_full_step.
Print Assumptions C59_calculateT.
Print Assumptions C59_full_step.
Print Assumptions C59_solutions_exist.
