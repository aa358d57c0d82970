(** Sums of monomials c delta^a h^b w with integer coefficients, w a word (noncommutative): normalisation and meaning. *)
From Coq Require Import String Reals ZArith Lra Lia.
From Coquelicot Require Import Coquelicot.
From Coq Require Import List Bool.
From Verif Require Import Base P_Terms.
Import ListNotations.
Open Scope R_scope.

Section Eval.
(** the value of a word, arbitrary *)
Variable W : list nat -> R.
Variable h : R.
Definition weval (x : R) (t : term) : R := let (c, a, b, l) := t in IZR c * x ^ a * h ^ b * W l.
Definition wlev (x : R) (l : list term) : R := fold_right (fun t acc => weval x t + acc) 0 l.
Lemma wlev_cons : forall x t l, wlev x (t :: l) = weval x t + wlev x l. Proof. reflexivity. Qed.
Lemma wlev_app : forall x a b, wlev x (a ++ b) = wlev x a + wlev x b.
Proof. intros. induction a; simpl; [ring|rewrite IHa; ring]. Qed.
Lemma weval_tsc : forall x k t, weval x (tsc k t) = IZR k * weval x t.
Proof. intros x k [c a b l]. simpl. rewrite mult_IZR. ring. Qed.
Lemma wlev_tsc : forall x k l, wlev x (map (tsc k) l) = IZR k * wlev x l.
Proof. intros. induction l; simpl; [ring|]. rewrite IHl, weval_tsc. ring. Qed.
(** derivative with respect to delta *)
Lemma wd1_val : forall l x, is_derive (fun x => wlev x l) x (wlev x (map td1 l)).
Proof.
  induction l as [|[c a b w] l IH]; intro x.
  - apply (is_derive_ext (fun _ : R => 0)); [reflexivity|]. auto_derive; [exact I|reflexivity].
  - apply (is_derive_ext (fun x => weval x (Te c a b w) + wlev x l)); [reflexivity|].
    cbn [map]. rewrite wlev_cons. apply (is_derive_plus (fun x => weval x (Te c a b w)) (fun x => wlev x l)); [|apply IH].
    cbn [weval td1]. auto_derive; [exact I|]. rewrite mult_IZR, <- INR_IZR_INZ.
    replace (Nat.pred a) with (a - 1)%nat by lia. ring.
Qed.
(** (delta d/d delta - i) / delta^2 *)
Lemma wB1 : forall i t x, tB_ok i t = true -> x * weval x (td1 t) - INR i * weval x t = x ^ 2 * weval x (tB i t).
Proof.
  intros i [c a b w] x H. cbn [tB_ok td1 tB weval] in *. rewrite !mult_IZR, minus_IZR, <- !INR_IZR_INZ.
  apply orb_prop in H. destruct H as [H|H].
  - apply Nat.leb_le in H. destruct a as [|[|a]]; try lia. replace (S (S a) - 1)%nat with (S a) by lia. replace (S (S a) - 2)%nat with a by lia.
    simpl (x ^ 2). cbn [pow]. ring.
  - apply Z.eqb_eq in H. apply (f_equal IZR) in H. rewrite mult_IZR, minus_IZR, <- !INR_IZR_INZ in H.
    replace (IZR c * (INR a - INR i) * x ^ (a - 2) * h ^ b * W w) with ((IZR c * (INR a - INR i)) * (x ^ (a - 2) * h ^ b * W w)) by ring.
    rewrite H. destruct a as [|a]; cbn [pow].
    + simpl (INR 0) in *. replace (x * (IZR c * 0 * x ^ (0 - 1) * h ^ b * W w) - INR i * (IZR c * 1 * h ^ b * W w)) with ((IZR c * (0 - INR i)) * (h ^ b * W w)) by ring.
      rewrite H. ring.
    + replace (S a - 1)%nat with a by lia.
      replace (x * (IZR c * INR (S a) * x ^ a * h ^ b * W w) - INR i * (IZR c * (x * x ^ a) * h ^ b * W w)) with ((IZR c * (INR (S a) - INR i)) * (x * x ^ a * h ^ b * W w)) by ring.
      rewrite H. ring.
Qed.
Lemma wlev_filter0 : forall x l, wlev x (filter (fun t => negb (Z.eqb (tcoef t) 0)) l) = wlev x l.
Proof.
  intros x l. induction l as [|[c a b w] l IH]; [reflexivity|]. cbn [filter tcoef]. destruct (Z.eqb_spec c 0) as [->|]; cbn [negb].
  - rewrite IH, wlev_cons. cbn [weval]. ring.
  - rewrite !wlev_cons, IH. reflexivity.
Qed.
Lemma wB_val : forall i a x, forallb (tB_ok i) a = true ->
  x * wlev x (map td1 a) - INR i * wlev x a = x ^ 2 * wlev x (Bs i a).
Proof.
  intros i a x H. unfold Bs. rewrite wlev_filter0. induction a as [|t a IH]; [simpl; ring|]. cbn [forallb] in H. apply andb_prop in H. destruct H as [H1 H2].
  cbn [map]. rewrite !wlev_cons. specialize (IH H2). pose proof (wB1 i t x H1). lra.
Qed.
Lemma wdiv1_val : forall a x, forallb tdiv1_ok a = true -> wlev x a = x * wlev x (map tdiv1 a).
Proof.
  intros a x H. induction a as [|[c d b w] a IH]; [simpl; ring|]. cbn [forallb] in H. apply andb_prop in H. destruct H as [H1 H2].
  cbn [map]. rewrite !wlev_cons, (IH H2), Rmult_plus_distr_l. f_equal. cbn [weval tdiv1 tdiv1_ok] in *. apply orb_prop in H1. destruct H1 as [H1|H1].
  - apply Nat.leb_le in H1. destruct d; [lia|]. replace (S d - 1)%nat with d by lia. cbn [pow]. ring.
  - apply Z.eqb_eq in H1. subst c. ring.
Qed.
(** bilinear collapse to delta = h *)
Lemma wcollapse_val : forall a, wlev h a = wlev h (map tcollapse a).
Proof.
  intros a. induction a as [|[c d b w] a IH]; [reflexivity|]. cbn [map]. rewrite !wlev_cons, IH. f_equal. cbn [weval tcollapse pow].
  rewrite pow_add. ring.
Qed.
End Eval.

(** ---- normalisation with a trie keyed by the unary encoding of (a, b, word) *)
Fixpoint enc (l : list nat) : list bool := match l with [] => [] | k :: r => reps true k (false :: enc r) end.
Fixpoint nums (acc : nat) (p : list bool) : list nat :=
  match p with [] => [] | true :: p' => nums (S acc) p' | false :: p' => acc :: nums 0 p' end.
Lemma nums_reps : forall k acc p, nums acc (reps true k p) = nums (acc + k) p.
Proof. induction k; intros; cbn [reps nums]; [f_equal; lia|]. rewrite IHk. f_equal. lia. Qed.
Lemma nums_enc : forall l, nums 0 (enc l) = l.
Proof. induction l as [|k l IH]; [reflexivity|]. cbn [enc]. rewrite nums_reps. cbn [nums]. rewrite IH. reflexivity. Qed.
Definition tenc (t : term) : list bool := let (_, a, b, w) := t in enc (a :: b :: w).
Definition tdec (c : Z) (p : list bool) : term := match nums 0 p with a :: b :: w => Te c a b w | _ => Te 0 0 0 [] end.
Lemma tdec_enc : forall t, tdec (tcoef t) (tenc t) = t.
Proof. intros [c a b w]. unfold tdec, tenc. rewrite nums_enc. reflexivity. Qed.

Fixpoint collect (pre : list bool) (q : pol) : list term :=
  match q with
  | P0 => []
  | PN c o n => (if Z.eqb c 0 then [] else [tdec c (rev pre)]) ++ collect (true :: pre) o ++ collect (false :: pre) n
  end.
Definition wins (l : list term) (q : pol) : pol := fold_left (fun q t => pins (tcoef t) (tenc t) q) l q.
Definition wnorm (l : list term) : list term := collect [] (wins l P0).

Section Norm.
Variable W : list nat -> R.
Variables h x : R.
Notation lev := (wlev W h x).
Fixpoint tsum (F : list bool -> R) (q : pol) : R :=
  match q with P0 => 0 | PN c o n => IZR c * F [] + tsum (fun p => F (true :: p)) o + tsum (fun p => F (false :: p)) n end.
Lemma psingle_sum : forall p c F, tsum F (psingle c p) = IZR c * F p.
Proof. induction p as [|[] p IH]; intros; cbn [psingle tsum]; rewrite ?IH; ring. Qed.
Lemma pins_sum : forall p c q F, tsum F (pins c p q) = IZR c * F p + tsum F q.
Proof.
  induction p as [|b p IH]; intros c q F; destruct q as [|d o n]; cbn [pins].
  - rewrite psingle_sum. simpl. ring.
  - cbn [tsum]. rewrite plus_IZR. ring.
  - destruct b; rewrite psingle_sum; cbn [tsum]; ring.
  - destruct b; cbn [tsum]; rewrite IH; ring.
Qed.
Definition Fp (p : list bool) : R := weval W h x (tdec 1 p).
Lemma tdec_val : forall c p, weval W h x (tdec c p) = IZR c * Fp p.
Proof. intros c p. unfold Fp, tdec. destruct (nums 0 p) as [|a [|b w]]; cbn [weval]; ring. Qed.
Lemma collect_val : forall q pre, lev (collect pre q) = tsum (fun p => Fp (rev pre ++ p)) q.
Proof.
  induction q as [|c o IHo n IHn]; intro pre; [reflexivity|]. cbn [collect tsum]. rewrite !wlev_app, IHo, IHn.
  assert (forall b p, rev (b :: pre) ++ p = rev pre ++ b :: p) as E by (intros; cbn [rev]; rewrite <- app_assoc; reflexivity).
  assert (forall b q', tsum (fun p => Fp (rev (b :: pre) ++ p)) q' = tsum (fun p => Fp (rev pre ++ b :: p)) q') as E'.
  { intros b q'. assert (forall q2 G1 G2, (forall p, G1 p = G2 p) -> tsum G1 q2 = tsum G2 q2) as X.
    { induction q2 as [|c2 o2 I1 n2 I2]; intros G1 G2 HG; [reflexivity|]. cbn [tsum]. rewrite (HG []), (I1 _ (fun p => G2 (true :: p))), (I2 _ (fun p => G2 (false :: p))) by auto. reflexivity. }
    apply X. intro. rewrite E. reflexivity. }
  rewrite !E'. rewrite Rplus_assoc. f_equal. rewrite app_nil_r. destruct (Z.eqb_spec c 0) as [->|].
  - cbn. ring.
  - rewrite wlev_cons, tdec_val. cbn. ring.
Qed.
Lemma wins_val : forall l q, tsum Fp (wins l q) = lev l + tsum Fp q.
Proof.
  induction l as [|t l IH]; intro q; cbn [wins fold_left]; [simpl; ring|]. fold (wins l (pins (tcoef t) (tenc t) q)).
  rewrite IH, pins_sum, wlev_cons. rewrite <- tdec_val, tdec_enc. ring.
Qed.
Lemma wnorm_val : forall l, lev (wnorm l) = lev l.
Proof. intro l. unfold wnorm. rewrite collect_val. cbn [rev app]. change (fun p => Fp p) with Fp. rewrite wins_val. simpl. ring. Qed.
End Norm.
