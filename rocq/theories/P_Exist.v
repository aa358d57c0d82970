(** Existence of solutions of y'' = p y for a polynomial p, by power series. *)
From Coq Require Import String QArith Qreals Reals Lra Lia.
From Coquelicot Require Import Coquelicot.
From Coq Require Import List.
From Verif Require Import S_Poly P_Poly S_Legendre S_Formulas.
Import ListNotations.
Open Scope R_scope.

(** coefficient n of the product of p and the series c *)
Fixpoint convf (p : list R) (c : nat -> R) (n : nat) : R :=
  match p with [] => 0 | a :: p' => a * c n + match n with O => 0 | S m => convf p' c m end end.
Lemma convf_ext : forall p c d n, (forall j, (j <= n)%nat -> c j = d j) -> convf p c n = convf p d n.
Proof.
  induction p as [|a p IH]; intros c d n H; [reflexivity|]. cbn [convf]. rewrite (H n) by lia. destruct n; [reflexivity|].
  rewrite (IH c d n); [reflexivity|]. intros; apply H; lia.
Qed.
(** sum |p_k| r^k *)
Fixpoint pnorm (r : R) (p : list R) : R := match p with [] => 0 | a :: p' => Rabs a + r * pnorm r p' end.
Lemma pnorm_nonneg : forall r p, 0 <= r -> 0 <= pnorm r p.
Proof. intros r p Hr. induction p; cbn [pnorm]; [lra|]. pose proof (Rabs_pos a). nra. Qed.
Lemma convf_bound : forall r M p c n, 0 <= r -> 0 <= M -> (forall j, (j <= n)%nat -> Rabs (c j) * r ^ j <= M) ->
  Rabs (convf p c n) * r ^ n <= pnorm r p * M.
Proof.
  intros r M p c n Hr HM. revert n. induction p as [|a p IH]; intros n H; cbn [convf pnorm]; [rewrite Rabs_R0; lra|].
  assert (0 <= r ^ n) by (apply pow_le, Hr).
  apply Rle_trans with (Rabs a * (Rabs (c n) * r ^ n) + Rabs (match n with O => 0 | S m => convf p c m end) * r ^ n).
  - rewrite <- Rmult_assoc, <- Rmult_plus_distr_r, <- Rabs_mult. apply Rmult_le_compat_r; [assumption|]. apply Rabs_triang.
  - rewrite Rmult_plus_distr_r. apply Rplus_le_compat.
    + apply Rmult_le_compat_l; [apply Rabs_pos|]. apply H. lia.
    + destruct n as [|m].
      * rewrite Rabs_R0, Rmult_0_l. apply Rmult_le_pos; [|exact HM]. apply Rmult_le_pos; [exact Hr|apply pnorm_nonneg, Hr].
      * cbn [pow]. replace (Rabs (convf p c m) * (r * r ^ m)) with (r * (Rabs (convf p c m) * r ^ m)) by ring. rewrite Rmult_assoc.
        apply Rmult_le_compat_l; [exact Hr|]. apply IH. intros; apply H; lia.
Qed.

Section Solution.
Variables (p : list R) (a b : R).
Fixpoint seqn (n : nat) : nat -> R :=
  match n with
  | O => fun j => if (j =? 0)%nat then a else b
  | S m => fun j => if (j =? m + 2)%nat then convf p (seqn m) m / (INR (m + 1) * INR (m + 2)) else seqn m j
  end.
Definition sol (j : nat) : R := seqn j j.
Lemma seqn_stable : forall n j, (j <= n + 1)%nat -> seqn n j = sol j.
Proof.
  assert (forall d j, (j <= d + 1)%nat -> seqn (S d) j = seqn d j) as H.
  { intros d j Hj. cbn [seqn]. destruct (Nat.eqb_spec j (d + 2)); [lia|reflexivity]. }
  assert (forall d j, seqn (j + d) j = sol j) as H1.
  { induction d; intro j; [rewrite Nat.add_0_r; reflexivity|]. rewrite Nat.add_succ_r, H by lia. apply IHd. }
  intros n j Hj. destruct (Nat.le_gt_cases j n) as [Hn|Hn].
  - replace n with (j + (n - j))%nat by lia. apply H1.
  - assert (j = S n) as -> by lia. unfold sol. symmetry. apply H. lia.
Qed.
Lemma sol_0 : sol 0 = a. Proof. reflexivity. Qed.
Lemma sol_1 : sol 1 = b. Proof. reflexivity. Qed.
Lemma sol_rec : forall n, INR (n + 1) * INR (n + 2) * sol (n + 2) = convf p sol n.
Proof.
  intro n. rewrite <- (seqn_stable (S n) (n + 2)) by lia. cbn [seqn]. rewrite Nat.eqb_refl.
  rewrite (convf_ext p (seqn n) sol n) by (intros; apply seqn_stable; lia).
  assert (INR (n + 1) <> 0) by (apply not_0_INR; lia). assert (INR (n + 2) <> 0) by (apply not_0_INR; lia). field. auto.
Qed.

Lemma sol_bounded : forall r, 0 < r -> exists M, forall n, Rabs (sol n) * r ^ n <= M.
Proof.
  intros r Hr. destruct (nfloor_ex (r * r * pnorm r p)) as (N0 & _ & HN0).
  { apply Rmult_le_pos; [nra|apply pnorm_nonneg; lra]. }
  assert (exists M, 0 <= M /\ forall n, (n <= N0 + 2)%nat -> Rabs (sol n) * r ^ n <= M) as (M & HM & HMn).
  { clear HN0. generalize (N0 + 2)%nat. intro m. induction m as [|m (M & HM & HI)].
    - exists (Rabs (sol 0) * r ^ 0). split; [apply Rmult_le_pos; [apply Rabs_pos|apply pow_le; lra]|].
      intros n Hn. assert (n = 0)%nat as -> by lia. lra.
    - exists (M + Rabs (sol (S m)) * r ^ (S m)).
      assert (0 <= Rabs (sol (S m)) * r ^ (S m)) by (apply Rmult_le_pos; [apply Rabs_pos|apply pow_le; lra]).
      split; [lra|]. intros n Hn. destruct (Nat.eq_dec n (S m)) as [->|Hne]; [lra|]. specialize (HI n ltac:(lia)). lra. }
  exists M. intro n. induction n as [n IH] using lt_wf_ind. destruct (Nat.le_gt_cases n (N0 + 2)) as [Hn|Hn]; [apply HMn, Hn|].
  set (m := (n - 2)%nat). replace n with (m + 2)%nat by lia.
  pose proof (convf_bound r M p sol m ltac:(lra) HM ltac:(intros j Hj; apply IH; lia)) as HB.
  rewrite <- sol_rec, !Rabs_mult, (Rabs_pos_eq (INR (m + 1))), (Rabs_pos_eq (INR (m + 2))) in HB by apply pos_INR.
  assert (r * r * pnorm r p <= INR (m + 1) * INR (m + 2)) as Hk.
  { assert (INR (N0 + 1) <= INR (m + 1)) by (apply le_INR; lia). rewrite plus_INR in H. change (INR 1) with 1 in H.
    assert (1 <= INR (m + 2)) by (apply (le_INR 1); lia). assert (0 <= INR (m + 1)) by apply pos_INR. nra. }
  assert (0 < INR (m + 1) * INR (m + 2)) as Hp by (apply Rmult_lt_0_compat; apply lt_0_INR; lia).
  apply (Rmult_le_reg_l (INR (m + 1) * INR (m + 2))); [exact Hp|].
  rewrite pow_add. simpl (r ^ 2). 
  replace (INR (m + 1) * INR (m + 2) * (Rabs (sol (m + 2)) * (r ^ m * (r * (r * 1)))))
    with (r * r * (INR (m + 1) * INR (m + 2) * Rabs (sol (m + 2)) * r ^ m)) by ring.
  apply Rle_trans with (r * r * (pnorm r p * M)); [apply Rmult_le_compat_l; [nra|exact HB]|].
  rewrite <- Rmult_assoc. apply Rmult_le_compat_r; assumption.
Qed.
Lemma sol_radius : CV_radius sol = p_infty.
Proof.
  destruct (CV_radius sol) as [r| |] eqn:Er; [| reflexivity|].
  - exfalso. destruct (sol_bounded (Rabs r + 1)) as (M & HM); [pose proof (Rabs_pos r); lra|].
    pose proof (proj1 (CV_radius_bounded sol) (Rabs r + 1)) as H. rewrite Er in H. cbn [Rbar_le] in H.
    assert (Rabs r + 1 <= r); [|pose proof (Rle_abs r); lra]. apply H. exists M. intro n. rewrite Rabs_mult, <- RPow_abs.
    rewrite (Rabs_pos_eq (Rabs r + 1)) by (pose proof (Rabs_pos r); lra). apply HM.
  - exfalso. pose proof (CV_radius_ge_0 sol) as H. rewrite Er in H. exact H.
Qed.
Lemma sol_ex : forall x, ex_pseries sol x.
Proof. intro x. apply CV_radius_inside. rewrite sol_radius. exact I. Qed.

Lemma convf_S : forall a0 p' (c : nat -> R) n, convf (a0 :: p') c n = PS_plus (PS_scal a0 c) (PS_incr_1 (convf p' c)) n.
Proof. intros. unfold PS_plus, PS_scal, PS_incr_1. cbn [convf]. destruct n; reflexivity. Qed.
Lemma convf_series : forall q x, ex_pseries (convf q sol) x /\ PSeries (convf q sol) x = polyval q x * PSeries sol x.
Proof.
  intros q x. induction q as [|a0 q (IHe & IHv)].
  - split.
    + apply (ex_pseries_ext (fun _ : nat => 0)); [reflexivity|]. apply CV_radius_inside. rewrite CV_radius_const_0. exact I.
    + rewrite polyval_nil, Rmult_0_l. rewrite <- (PSeries_const_0 x). apply PSeries_ext. reflexivity.
  - assert (ex_pseries (PS_scal a0 sol) x) as E1.
    { apply ex_pseries_scal; [apply Rmult_comm|apply sol_ex]. }
    assert (ex_pseries (PS_incr_1 (convf q sol)) x) as E2 by (apply ex_pseries_incr_1, IHe).
    split.
    + apply (ex_pseries_ext (PS_plus (PS_scal a0 sol) (PS_incr_1 (convf q sol)))); [intro; symmetry; apply convf_S|].
      apply ex_pseries_plus; assumption.
    + rewrite (PSeries_ext _ _ _ (convf_S a0 q sol)), PSeries_plus, PSeries_scal, PSeries_incr_1, IHv, polyval_cons by assumption. ring.
Qed.

Theorem series_solution : exists z z' : R -> R, z 0 = a /\ z' 0 = b /\
  forall x, is_derive z x (z' x) /\ is_derive z' x (polyval p x * z x).
Proof.
  exists (PSeries sol), (PSeries (PS_derive sol)). 
  split; [rewrite PSeries_0; apply sol_0|]. split; [rewrite PSeries_0; unfold PS_derive; simpl (INR 1); rewrite sol_1; ring|].
  intro x. split.
  - apply is_derive_PSeries. rewrite sol_radius. exact I.
  - evar_last; [apply is_derive_PSeries; rewrite CV_radius_derive, sol_radius; exact I|].
    rewrite <- (proj2 (convf_series p x)). apply PSeries_ext. intro n. unfold PS_derive. rewrite <- sol_rec.
    replace (n + 1)%nat with (S n) by lia. replace (n + 2)%nat with (S (S n)) by lia. ring.
Qed.
End Solution.

(** ---- the sector potential is a polynomial *)
Fixpoint ladd (p q : list R) : list R := match p, q with [], _ => q | _, [] => p | a :: p', b :: q' => (a + b) :: ladd p' q' end.
Lemma ladd_val : forall p q x, polyval (ladd p q) x = polyval p x + polyval q x.
Proof.
  induction p as [|a p IH]; intros q x; cbn [ladd]; [rewrite polyval_nil; ring|]. destruct q as [|b q]; [rewrite polyval_nil; ring|].
  rewrite !polyval_cons, IH. ring.
Qed.
Lemma lscale_val : forall s p x, polyval (map (Rmult s) p) x = s * polyval p x.
Proof. intros s p x. induction p as [|a p IH]; cbn [map]; [rewrite polyval_nil; ring|]. rewrite !polyval_cons, IH. ring. Qed.
Fixpoint sarg (s : R) (p : list R) : list R := match p with [] => [] | c :: p' => c :: map (Rmult s) (sarg s p') end.
Lemma sarg_val : forall s p x, polyval (sarg s p) x = polyval p (s * x).
Proof.
  intros s p x. induction p as [|a p IH]; cbn [sarg]; [rewrite !polyval_nil; reflexivity|].
  rewrite !polyval_cons, lscale_val, IH. ring.
Qed.
Lemma potential_poly : forall N v h E, exists p, forall x, polyval p x = sector_potential N v h x - E.
Proof.
  intros N v h E. unfold sector_potential. generalize (S N). intro n. induction n as [|n (p & Hp)].
  - exists [- E]. intro x. rewrite polyval_cons, polyval_nil. cbn [rsum]. ring.
  - exists (ladd p (map (Rmult (v n * h ^ n)) (sarg (/ h) (map Q2R (shifted_leg n))))). intro x.
    rewrite ladd_val, lscale_val, sarg_val, Hp. cbn [rsum]. unfold legendre_fun. replace (/ h * x) with (x / h) by (unfold Rdiv; ring).
    set (q := polyval _ _). ring.
Qed.

Theorem solution_exists : forall N v h E a b, exists z z', solves (sector_potential N v h) E h z z' /\ z 0 = a /\ z' 0 = b.
Proof.
  intros N v h E a b. destruct (potential_poly N v h E) as (p & Hp). destruct (series_solution p a b) as (z & z' & H0 & H1 & H).
  exists z, z'. split; [|auto]. intros x _. rewrite <- Hp. apply H.
Qed.
