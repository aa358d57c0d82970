(** The one-step error of the partial-step propagator. *)
From Coq Require Import String Reals ZArith Lra Lia.
From Coquelicot Require Import Coquelicot.
From Coq Require Import List Bool.
From Verif Require Import Base S_Eta P_Eta M_Eta P_Eta2 S_Poly S_Legendre S_Formulas M_Sectors M_TableData M_Core M_Formulas
  P_Terms P_Terms2 P_Formulas P_Formulas2 P_Formulas3 P_Formulas4 P_Gronwall P_Accuracy P_Formulas5.
Import ListNotations.
Open Scope R_scope.

Lemma legD_good : forallb (fun k => forallb tgood (legD k)) (seq 1 15) = true.
Proof. vm_cast_no_check (eq_refl true). Qed.
Lemma legD_good' : forall k, (1 <= k <= 15)%nat -> forallb tgood (legD k) = true.
Proof. intros k Hk. pose proof legD_good as H. rewrite forallb_forall in H. apply H, in_seq. lia. Qed.

(** against the potential of degree N, N = 13 or 15 *)
Definition deg_of (N : nat) : nat := if (N =? 13)%nat then 15 else 14.
Lemma column_check : forallb (fun N => forallb (fun c => column_ok (deg_of N) legD (seq 1 N) c DD (acol c)) (seq 0 2)) [13%nat; 15%nat] = true.
Proof. vm_cast_no_check (eq_refl true). Qed.
Lemma column_check' : forall N c, (N = 13 \/ N = 15)%nat -> (c < 2)%nat -> column_ok (deg_of N) legD (seq 1 N) c DD (acol c) = true.
Proof.
  intros N c HN Hc. pose proof column_check as H. rewrite forallb_forall in H. specialize (H N).
  rewrite forallb_forall in H. apply H; [|apply in_seq; lia]. destruct HN as [->| ->]; [left; reflexivity|right; left; reflexivity].
Qed.
Lemma acol_good : forallb (fun q => forallb (fun a => forallb tgood a) (acol q)) (seq 0 4) = true.
Proof. vm_cast_no_check (eq_refl true). Qed.
Lemma acol_good' : forall q, (q < 4)%nat -> forallb (fun a => forallb tgood a) (acol q) = true.
Proof. intros q Hq. pose proof acol_good as H. rewrite forallb_forall in H. apply H, in_seq. lia. Qed.

(** row 1 against the derivative of row 0 *)
Lemma der_row_val : forall c, (c < 2)%nat -> forall v h E x,
  / IZR DD * y1sum v h (v 0%nat - E) 0 (acol c) x
  = tent (c + 2) (step_delta eta_exact v h E x) + / IZR DD * hsum v h (v 0%nat - E) 0 (der_highs 16 0 [] (acol c) (acol (c + 2))) x.
Proof.
  intros c Hc v h E x. rewrite step_delta_val by lia. set (w := v 0%nat - E).
  pose proof (der_check c Hc) as Hk. pose proof (first_val c v h x Hc) as Hf. pose proof (acol_length c) as HL.
  rewrite ysum_hsum. destruct (acol c) as [|a l]; [discriminate|]. cbn [hd] in Hf.
  pose proof (der_val0 v h w 16 a l (acol (c + 2)) x Hk) as Hd. rewrite Hf in Hd.
  replace (y1sum v h w 0 (a :: l) x) with (hsum v h w 0 (acol (c + 2)) x + (if (c =? 0)%nat then IZR DD else 0) * (w * x * eta 1 (w * (x * x))) + hsum v h w 0 (der_highs 16 0 [] (a :: l) (acol (c + 2))) x) by lra.
  pose proof DD_nz. destruct c as [|[|c]]; [| |lia]; cbn [Nat.eqb Nat.add]; field; assumption.
Qed.

Theorem partial_error : forall N, (N = 13 \/ N = 15)%nat -> forall B W, 0 <= B -> 0 <= W -> exists K, 0 <= K /\
  forall v h E, (forall k, (1 <= k <= 15)%nat -> Rabs (v k) <= B) -> Rabs (v 0%nat - E) <= W -> 0 < h <= 1 ->
  forall z z', solves (sector_potential N v h) E h z z' ->
  forall x, 0 <= x <= h -> let T := step_delta eta_exact v h E x in
    Rabs (t00 T * z 0 + t01 T * z' 0 - z x) <= K * (Rabs (z 0) + Rabs (z' 0)) * h ^ (deg_of N + 2) /\
    Rabs (t10 T * z 0 + t11 T * z' 0 - z' x) <= K * (Rabs (z 0) + Rabs (z' 0)) * h ^ (deg_of N + 1).
Proof.
  intros N HN B W HB HW.
  assert (N <= 15)%nat as HN15 by lia.
  destruct (pair_error (deg_of N) legD (seq 1 N) DD (acol 0) (acol 1) (column_check' N 0 HN ltac:(lia)) (column_check' N 1 HN ltac:(lia))
    ltac:(discriminate) ltac:(intros k u Hk; apply legD_deg; apply in_seq in Hk; lia)
    ltac:(intros k Hk; apply legD_good'; apply in_seq in Hk; lia) B W HB HW) as (K & HK & HKe).
  set (Dc := fun c => Rabs (/ IZR DD) * (Cll B (der_highs 16 0 [] (acol c) (acol (c + 2))) * eta 0 W)).
  assert (forall c, 0 <= Dc c) as HDc.
  { intro c. apply Rmult_le_pos; [apply Rabs_pos|]. apply Rmult_le_pos; [apply Cll_nonneg, HB|apply eta0_nonneg, HW]. }
  pose proof (HDc 0%nat) as HD0. pose proof (HDc 1%nat) as HD1.
  exists (K + (Dc 0%nat + Dc 1%nat)). split; [lra|].
  intros v h E Hv Hw Hh z z' Hz x Hx T.
  assert (h <> 0) as Hh0 by lra.
  destruct (HKe v h (v 0%nat - E) Hv Hw Hh z z') with (x := x) as [G1 G0]; [| |exact Hx|].
  { intros t Ht. apply Hz, Ht. }
  { intros t Ht. pose proof (proj2 (Hz t Ht)) as H. rewrite <- Dsum_potential in H by assumption.
    replace (v 0%nat - E + Dsum v h legD (seq 1 N) t) with (v 0%nat + Dsum v h legD (seq 1 N) t - E) by ring. exact H. }
  assert (forall c, (c < 2)%nat -> tent c T = / IZR DD * ysum v h (v 0%nat - E) 0 (acol c) x) as Ht.
  { intros c Hc. unfold T. rewrite step_delta_val by lia. destruct (Nat.eqb_spec c 2); [lia|]. ring. }
  pose proof (Ht 0%nat ltac:(lia)) as T0. pose proof (Ht 1%nat ltac:(lia)) as T1. cbn [tent] in T0, T1.
  pose proof (der_row_val 0 ltac:(lia) v h E x) as R0. pose proof (der_row_val 1 ltac:(lia) v h E x) as R1. fold T in R0, R1. cbn [tent Nat.add] in R0, R1.
  set (w := v 0%nat - E) in *.
  pose proof (Rabs_pos (z 0)) as Ha. pose proof (Rabs_pos (z' 0)) as Hb.
  assert (0 <= h ^ (deg_of N + 2)) as Hp2 by (apply pow_le; lra). assert (0 <= h ^ (deg_of N + 1)) as Hp1 by (apply pow_le; lra).
  split.
  - unfold comb in G0. rewrite T0, T1.
    replace (/ IZR DD * ysum v h w 0 (acol 0) x * z 0 + / IZR DD * ysum v h w 0 (acol 1) x * z' 0)
      with (/ IZR DD * (z 0 * ysum v h w 0 (acol 0) x + z' 0 * ysum v h w 0 (acol 1) x)) by ring.
    eapply Rle_trans; [exact G0|]. apply Rmult_le_compat_r; [assumption|]. apply Rmult_le_compat_r; lra.
  - unfold comb in G1. set (r0 := / IZR DD * hsum _ _ _ _ _ _) in R0. set (r1 := / IZR DD * hsum _ _ _ _ _ _) in R1.
    assert (forall c, (c < 2)%nat -> Rabs (/ IZR DD * hsum v h w 0 (der_highs 16 0 [] (acol c) (acol (c + 2))) x) <= Dc c * h ^ (deg_of N + 1)) as HR.
    { intros c Hc. rewrite Rabs_mult. unfold Dc. rewrite Rmult_assoc. apply Rmult_le_compat_l; [apply Rabs_pos|].
      eapply Rle_trans; [apply (hsum_bound v h B Hv Hh w W Hw 16); [exact Hx| |]|].
      - apply der_highs_good; [apply acol_good'; lia|apply acol_good'; lia|reflexivity].
      - intros r t. apply der_highs_deg.
      - apply Rmult_le_compat_l; [apply Rmult_le_pos; [apply Cll_nonneg, HB|apply eta0_nonneg, HW]|].
        apply (pow_le_h h); [lra|]. unfold deg_of. destruct (N =? 13)%nat; lia. }
    pose proof (HR 0%nat ltac:(lia)) as B0. pose proof (HR 1%nat ltac:(lia)) as B1. cbn [Nat.add] in B0, B1. fold r0 in B0. fold r1 in B1.
    set (p := h ^ (deg_of N + 1)) in *.
    replace (t10 T * z 0 + t11 T * z' 0 - z' x)
      with ((/ IZR DD * (z 0 * y1sum v h w 0 (acol 0) x + z' 0 * y1sum v h w 0 (acol 1) x) - z' x) - (r0 * z 0 + r1 * z' 0)).
    2:{ replace (t10 T) with (/ IZR DD * y1sum v h w 0 (acol 0) x - r0) by lra.
        replace (t11 T) with (/ IZR DD * y1sum v h w 0 (acol 1) x - r1) by lra. ring. }
    eapply Rle_trans; [apply Rabs_triang|]. rewrite Rabs_Ropp.
    assert (Rabs (r0 * z 0 + r1 * z' 0) <= (Dc 0%nat + Dc 1%nat) * (Rabs (z 0) + Rabs (z' 0)) * p) as HR2.
    { eapply Rle_trans; [apply Rabs_triang|]. rewrite !Rabs_mult.
      assert (Rabs r0 * Rabs (z 0) <= Dc 0%nat * p * Rabs (z 0)) by (apply Rmult_le_compat_r; assumption).
      assert (Rabs r1 * Rabs (z' 0) <= Dc 1%nat * p * Rabs (z' 0)) by (apply Rmult_le_compat_r; assumption).
      assert (0 <= Dc 0%nat * p * Rabs (z' 0)) by (apply Rmult_le_pos; [apply Rmult_le_pos|]; assumption).
      assert (0 <= Dc 1%nat * p * Rabs (z 0)) by (apply Rmult_le_pos; [apply Rmult_le_pos|]; assumption).
      replace ((Dc 0%nat + Dc 1%nat) * (Rabs (z 0) + Rabs (z' 0)) * p)
        with (Dc 0%nat * p * Rabs (z 0) + Dc 0%nat * p * Rabs (z' 0) + (Dc 1%nat * p * Rabs (z 0) + Dc 1%nat * p * Rabs (z' 0))) by ring. lra. }
    rewrite !Rmult_plus_distr_r in *. lra.
Qed.
