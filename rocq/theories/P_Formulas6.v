(** Constant potentials. *)
From Coq Require Import String Reals ZArith Lra Lia.
From Coquelicot Require Import Coquelicot.
From Coq Require Import List Bool.
From Verif Require Import Base S_Eta P_Eta S_Formulas M_Sectors M_TableData M_Core M_Formulas
  P_Terms P_Terms2 P_Formulas P_Formulas2 P_Formulas3 P_Formulas4 P_Accuracy P_Formulas5 P_Accuracy2 P_Accuracy4.
Import ListNotations.
Open Scope R_scope.

Definition no_v (t : term) : bool := let (_, _, _, l) := t in match l with [] => true | _ => false end.
Lemma leval_const : forall v h x l, (forall k, (1 <= k <= 15)%nat -> v k = 0) -> forallb tgood l = true ->
  leval v h x l = leval v h x (filter no_v l).
Proof.
  intros v h x l Hv. induction l as [|[c a b m] l IH]; [reflexivity|]. cbn [forallb filter tgood no_v]. intro H.
  apply andb_prop in H. destruct H as [Hm Hl]. cbn [leval fold_right]. fold (leval v h x l).
  destruct m as [|k m]; cbn [leval fold_right]; rewrite IH by exact Hl; [reflexivity|].
  cbn [forallb] in Hm. apply andb_prop in Hm. destruct Hm as [Hk _]. unfold idx_ok in Hk. apply andb_prop in Hk. destruct Hk as [H1 H2].
  apply Nat.leb_le in H1. apply Nat.leb_le in H2. cbn [teval vprod]. rewrite (Hv k) by lia. unfold leval. ring.
Qed.
(** the eta coefficients of the exact propagator of a constant potential: 1 for eta_0, delta for eta_1 *)
Definition const_term (q i : nat) : term :=
  if ((q =? 0)%nat || (q =? 3)%nat) && (i =? 0)%nat then Te DD 0 0 []
  else if (q =? 1)%nat && (i =? 1)%nat then Te DD 1 0 [] else Te 0 0 0 [].
Lemma const_check : forallb (fun q => forallb (fun i =>
  is_zero (tsc (-1) (const_term q i) :: filter no_v (nth i (acol q) [])) &&
  is_zero (tsc (-1) (tcollapse (const_term q i)) :: filter no_v (hcol q i))) (seq 0 10)) (seq 0 4) = true.
Proof. vm_cast_no_check (eq_refl true). Qed.

Definition exact_const (q : nat) (w x : R) : R :=
  match q with O => eta 0 (w * (x * x)) | 1%nat => x * eta 1 (w * (x * x)) | 2%nat => w * x * eta 1 (w * (x * x)) | _ => eta 0 (w * (x * x)) end.
Lemma const_sum : forall q n w x (f : nat -> R), (q < 4)%nat -> (2 <= n)%nat ->
  (forall i, (i < n)%nat -> f i = (if ((q =? 0)%nat || (q =? 3)%nat) && (i =? 0)%nat then 1 else if (q =? 1)%nat && (i =? 1)%nat then x else 0)) ->
  (if (q =? 2)%nat then w * x * eta 1 (w * (x * x)) else 0) + rsum n (fun i => f i * eta i (w * (x * x))) = exact_const q w x.
Proof.
  intros q n w x f Hq Hn Hf. destruct n as [|[|n]]; [lia|lia|]. rewrite !rsum_S, !Hf by lia.
  assert (rsum n (fun k => f (S (S k)) * eta (S (S k)) (w * (x * x))) = rsum n (fun _ => 0)) as ->.
  { apply rsum_ext. intros i Hi. rewrite Hf by lia. cbn [Nat.eqb]. rewrite !andb_false_r. ring. }
  assert (forall m, rsum m (fun _ => 0) = 0) as -> by (induction m; cbn [rsum]; lra).
  destruct q as [|[|[|[|q]]]]; [| | | |lia]; cbn [Nat.eqb orb andb exact_const]; ring.
Qed.
Theorem constant_exact : forall q, (q < 4)%nat -> forall v h E, (forall k, (1 <= k <= 15)%nat -> v k = 0) ->
  (forall x, tent q (step_delta eta_exact v h E x) = exact_const q (v 0%nat - E) x) /\
  tent q (step_full eta_exact v h E) = exact_const q (v 0%nat - E) h.
Proof.
  intros q Hq v h E Hv. pose proof DD_nz as HD.
  assert (forall i x, (i < 10)%nat -> leval v h x (nth i (acol q) []) = teval v h x (const_term q i) /\
     leval v h x (hcol q i) = teval v h x (tcollapse (const_term q i))) as H.
  { intros i x Hi. pose proof const_check as Hc. rewrite forallb_forall in Hc. specialize (Hc q ltac:(apply in_seq; lia)).
    rewrite forallb_forall in Hc. specialize (Hc i ltac:(apply in_seq; lia)). apply andb_prop in Hc. destruct Hc as [H1 H2].
    apply (is_zero_val v h x) in H1. apply (is_zero_val v h x) in H2. cbn [leval fold_right] in H1, H2. rewrite teval_tsc in H1, H2.
    fold (leval v h x (filter no_v (nth i (acol q) []))) in H1. fold (leval v h x (filter no_v (hcol q i))) in H2.
    rewrite <- leval_const in H1, H2; try exact Hv.
    - lra.
    - pose proof hcol_good as Hg. rewrite forallb_forall in Hg. specialize (Hg q ltac:(apply in_seq; lia)).
      rewrite forallb_forall in Hg. apply Hg, in_seq. lia.
    - destruct (Nat.lt_ge_cases i 9) as [H9|H9].
      + pose proof (acol_good' q Hq) as Hg. rewrite forallb_forall in Hg. apply Hg, nth_In. rewrite acol_length. exact H9.
      + rewrite nth_overflow by (rewrite acol_length; exact H9). reflexivity. }
  split.
  - intro x. rewrite step_delta_val2 by exact Hq. apply const_sum; [exact Hq|lia|]. intros i Hi.
    apply (Rmult_eq_reg_l (IZR DD)); [|exact HD]. rewrite <- acol_val by exact Hi. rewrite (proj1 (H i x ltac:(lia))).
    unfold const_term. destruct (_ && _); [cbn [teval vprod pow]; ring|]. destruct (_ && _); cbn [teval vprod pow]; ring.
  - rewrite step_full_val by exact Hq. apply const_sum; [exact Hq|lia|]. intros i Hi.
    apply (Rmult_eq_reg_l (IZR DD)); [|exact HD]. rewrite <- (hcol_val v h q i h) by exact Hi. rewrite (proj2 (H i h ltac:(lia))).
    unfold const_term. destruct (_ && _); [cbn [teval vprod pow tcollapse Nat.add]; ring|]. destruct (_ && _); cbn [teval vprod pow tcollapse Nat.add]; ring.
Qed.
