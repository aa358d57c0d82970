(** C42 on doubles: the bisection of the periodic search terminates in floating-point arithmetic too. *)
From Coq Require Import String ZArith QArith List Bool Lia Floats.
From Verif Require Import M_Search.
From Coq Require Import Reals Lra.
From Flocq Require Import Core BinarySingleNaN PrimFloat.
From Verif Require Import Base P_Float M_Periodic M_Bindings P_Bisect.
Open Scope R_scope.

Lemma same_sign_sym : forall a b : PrimFloat.float, same_sign a b = same_sign b a.
Proof. intros a b. unfold same_sign. rewrite (andb_comm (slt a _)), (andb_comm (slt _ a)). reflexivity. Qed.
Lemma sign_excl : forall a : PrimFloat.float, slt a (sofZ 0%Z) = true -> slt (sofZ 0%Z) a = true -> False.
Proof.
  intros a A B. change (a <? floatofZ 0 = true)%float in A. change (floatofZ 0 <? a = true)%float in B.
  apply f_lt_iff in A. apply f_lt_iff in B. destruct A as (_ & _ & A). destruct B as (_ & _ & B). lra.
Qed.
Lemma same_sign_trans : forall a b c : PrimFloat.float, same_sign a b = true -> same_sign a c = same_sign b c.
Proof.
  intros a b c. unfold same_sign. pose proof (sign_excl a) as A. pose proof (sign_excl b) as B.
  destruct (slt a (sofZ 0%Z)), (slt (sofZ 0%Z) a), (slt b (sofZ 0%Z)), (slt (sofZ 0%Z) b); cbn; try reflexivity; try discriminate; intros _; exfalso; auto.
Qed.
Definition state_ok (a b : PrimFloat.float) : Prop := fin a /\ fin b /\ val a <= val b /\ Rabs (val a) <= big /\ Rabs (val b) <= big.
Lemma binarySearch_step : forall fuel a b (f : PrimFloat.float -> PrimFloat.float) g, wide a b = true ->
  binarySearch (S fuel) a b f eps8 g = if same_sign g (f (middle a b)) then binarySearch fuel (middle a b) b f eps8 (f (middle a b)) else binarySearch fuel a (middle a b) f eps8 g.
Proof. intros fuel a b f g W. cbn [binarySearch]. match goal with |- (if ?t then _ else _) = _ => change t with (wide a b) end. rewrite W. reflexivity. Qed.
Lemma binarySearch_stop : forall fuel a b (f : PrimFloat.float -> PrimFloat.float) g, wide a b = false -> binarySearch fuel a b f eps8 g = Ret (middle a b).
Proof. intros fuel a b f g W. destruct fuel; cbn [binarySearch]; match goal with |- (if ?t then _ else _) = _ => change t with (wide a b) end; rewrite W; reflexivity. Qed.
Lemma loop_double : forall n lo hi f g0, state_ok lo hi -> forall fuel a b g, (n <= fuel)%nat -> state_ok a b -> val lo <= val a -> val b <= val hi ->
  (a = lo /\ g = g0 \/ same_sign g0 g = true /\ g = f a) -> (b = hi \/ same_sign g0 (f b) = false) -> (val b - val a) * (3 / 5) ^ n < 98 / 10000000000 ->
  exists a' b', binarySearch fuel a b f eps8 g = Ret (middle a' b') /\ state_ok a' b' /\ val lo <= val a' /\ val b' <= val hi /\
    val b' - val a' <= 102 / 10000000000 * scale (val a') /\ (a' = lo \/ same_sign g0 (f a') = true) /\ (b' = hi \/ same_sign g0 (f b') = false).
Proof.
  induction n as [|n IH]; intros lo hi f g0 OK0 fuel a b g Hf OK La Lb Ga Gb W; pose proof OK as (Fa & Fb & L & Ba & Bb).
  - assert (wide a b = false) as N.
    { destruct (wide a b) eqn:E; [|reflexivity]. apply (proj1 (wide_val a b Fa Fb L Ba Bb)) in E. exfalso. unfold scale in E. pose proof (Rmax_l 1 (Rabs (val a))). cbn [pow] in W. lra. }
    exists a, b. rewrite binarySearch_stop by exact N. split; [reflexivity|]. split; [exact OK|]. split; [exact La|]. split; [exact Lb|].
    split; [exact (proj2 (wide_val a b Fa Fb L Ba Bb) N)|]. split; [|exact Gb]. destruct Ga as [(-> & _)|(Ga & ->)]; auto.
  - destruct (wide a b) eqn:E.
    + destruct fuel as [|fuel]; [lia|]. rewrite binarySearch_step by exact E. destruct (mid_val a b Fa Fb L Ba Bb) as (Fm & Im & _). destruct (mid_shrinks a b Fa Fb L Ba Bb E) as (S1 & S2).
      assert (0 < (3 / 5) ^ n) as P by (apply pow_lt; lra). cbn [pow] in W.
      assert (Rabs (val (middle a b)) <= big) as Bm. { apply Rabs_le. apply Rabs_le_inv in Ba. apply Rabs_le_inv in Bb. lra. }
      destruct (same_sign g (f (middle a b))) eqn:SS.
      * apply (IH lo hi f g0 OK0 fuel (middle a b) b (f (middle a b))); [lia| |lra|exact Lb| |exact Gb|].
        -- unfold state_ok. split; [exact Fm|]. split; [exact Fb|]. split; [lra|]. split; [exact Bm|exact Bb].
        -- right. split; [|reflexivity]. destruct Ga as [(-> & ->)|(Ga & _)]; [exact SS|]. rewrite (same_sign_trans _ _ _ Ga). exact SS.
        -- eapply Rle_lt_trans; [|exact W]. rewrite <- Rmult_assoc. apply Rmult_le_compat_r; lra.
      * apply (IH lo hi f g0 OK0 fuel a (middle a b) g); [lia| |exact La|lra|exact Ga| |].
        -- unfold state_ok. split; [exact Fa|]. split; [exact Fm|]. split; [lra|]. split; [exact Ba|exact Bm].
        -- right. destruct Ga as [(-> & ->)|(Ga & _)]; [exact SS|]. rewrite (same_sign_trans _ _ _ Ga). exact SS.
        -- eapply Rle_lt_trans; [|exact W]. rewrite <- Rmult_assoc. apply Rmult_le_compat_r; lra.
    + exists a, b. rewrite binarySearch_stop by exact E. split; [reflexivity|]. split; [exact OK|]. split; [exact La|]. split; [exact Lb|].
      split; [exact (proj2 (wide_val a b Fa Fb L Ba Bb) E)|]. split; [|exact Gb]. destruct Ga as [(-> & _)|(Ga & ->)]; auto.
Qed.

Definition real (x : PrimFloat.float) : R := SF2R radix2 (Prim2SF x).
Lemma real_val : forall x, real x = val x.
Proof. intro x. unfold real, val, Prim2B. rewrite B2R_SF2B. reflexivity. Qed.
Lemma fin_of_le : forall x, (abs x <=? 0x1p1000)%float = true -> fin x /\ Rabs (val x) <= big.
Proof.
  intros x H. apply f_le_iff in H. destruct H as (O & _ & L). assert (fval 0x1p1000 = big) as E1 by (unfold fval, Bval, big; destruct (const_val 0x1p1000%float false 4503599627370496 948 ltac:(vm_compute; reflexivity)) as (A & B);
    unfold fin in A; unfold val in B; destruct (Prim2B 0x1p1000); try discriminate; rewrite B; unfold F2R; cbn [Fnum Fexp cond_Zopp]; change 4503599627370496%positive with (2 ^ 52)%positive;
    change (IZR (Z.pos (2 ^ 52))) with (bpow radix2 52); rewrite <- bpow_plus; reflexivity). rewrite E1 in L. clear E1.
  assert (fin x) as F.
  { unfold fval, fok in *. rewrite abs_equiv in *. unfold fin. destruct (Prim2B x) as [s|s| |s m e Hm]; try reflexivity; [|discriminate O]. exfalso. change (Babs (B754_infinity s)) with (@B754_infinity prec emax false) in L. unfold Bval in L. revert L. unfold big. apply Rlt_not_le. apply bpow_lt. reflexivity. }
  split; [exact F|]. destruct (abs_val x F) as (Fa & <-). destruct (fin_fval _ Fa) as (_ & <-). exact L.
Qed.
Lemma le_val : forall x y, fin x -> fin y -> (x <=? y)%float = true <-> val x <= val y.
Proof.
  intros x y Fx Fy. destruct (fin_fval x Fx) as (Ox & Vx). destruct (fin_fval y Fy) as (Oy & Vy). rewrite f_le_iff, Vx, Vy. tauto.
Qed.

(** There is one bound on the number of turns for all functions and all starting intervals of doubles up to 2^1000 in size; the bracket
    found lies in the given one, is relatively narrow, and its ends are where the sign test put them; the result lies inside. *)
Theorem C42_double : exists n, forall (eMin eMax : PrimFloat.float) (f : PrimFloat.float -> PrimFloat.float) (fMin : PrimFloat.float) fuel,
  (abs eMin <=? 0x1p1000)%float = true -> (abs eMax <=? 0x1p1000)%float = true -> (eMin <=? eMax)%float = true -> (n <= fuel)%nat ->
  exists a b r, binarySearch fuel eMin eMax f eps8 fMin = Ret r /\ r = ((a + b) / 2)%float /\
    (eMin <=? a)%float = true /\ (a <=? r)%float = true /\ (r <=? b)%float = true /\ (b <=? eMax)%float = true /\
    real b - real a <= 102 / 10000000000 * Rmax 1 (Rabs (real a)) /\
    (a = eMin \/ same_sign fMin (f a) = true) /\ (b = eMax \/ same_sign fMin (f b) = false).
Proof.
  assert (exists n, 2 * big * (3 / 5) ^ n < 98 / 10000000000) as (n & Hn).
  { pose proof big_1 as B1. destruct (pow_lt_1_zero (3 / 5) ltac:(rewrite Rabs_pos_eq; lra) (98 / 10000000000 / (2 * big))) as (n & N); [apply Rdiv_lt_0_compat; lra|].
    exists n. specialize (N n (le_n n)). rewrite Rabs_pos_eq in N by (apply pow_le; lra). apply (Rmult_lt_compat_l (2 * big)) in N; [|lra].
    replace (2 * big * (98 / 10000000000 / (2 * big))) with (98 / 10000000000) in N by (field; lra). exact N. }
  exists n. intros eMin eMax f fMin fuel B1 B2 L Hf. destruct (fin_of_le _ B1) as (F1 & A1). destruct (fin_of_le _ B2) as (F2 & A2). apply (le_val _ _ F1 F2) in L.
  assert (state_ok eMin eMax) as OK by (unfold state_ok; auto).
  destruct (loop_double n eMin eMax f fMin OK fuel eMin eMax fMin Hf OK) as (a & b & E & (Fa & Fb & Lab & Ba & Bb) & I1 & I2 & W & Sa & Sb); [lra|lra|left; auto|left; auto| |].
  { eapply Rle_lt_trans; [|exact Hn]. apply Rmult_le_compat_r; [apply pow_le; lra|]. apply Rabs_le_inv in A1. apply Rabs_le_inv in A2. lra. }
  destruct (mid_val a b Fa Fb Lab Ba Bb) as (Fm & Im & _). exists a, b, (middle a b). rewrite !real_val.
  split; [exact E|]. split; [reflexivity|]. split; [apply le_val; auto|]. split; [apply le_val; auto; apply Im|]. split; [apply le_val; auto; apply Im|]. split; [apply le_val; auto|].
  split; [exact W|]. split; [exact Sa|exact Sb].
Qed.

(** The bound on the size is needed: from an infinite upper end the search never ends when the function is not a number there. *)
Theorem C42_infinite_end : forall (f : PrimFloat.float -> PrimFloat.float) fMin fuel, f infinity = nan -> binarySearch fuel (-1)%float infinity f eps8 fMin = Fuel.
Proof.
  intros f fMin fuel N. induction fuel as [|k IH].
  - cbn [binarySearch]. match goal with |- (if ?t then _ else _) = _ => change t with (wide (-1)%float infinity) end. replace (wide (-1)%float infinity) with true by (vm_compute; reflexivity). reflexivity.
  - rewrite binarySearch_step by (vm_compute; reflexivity). replace (middle (-1)%float infinity) with infinity by (vm_compute; reflexivity). rewrite N.
    replace (same_sign fMin nan) with false; [exact IH|]. unfold same_sign. replace (slt nan (sofZ 0%Z)) with false by (vm_compute; reflexivity).
    replace (slt (sofZ 0%Z) (nan : PrimFloat.float)) with false by (vm_compute; reflexivity). rewrite !andb_false_r. reflexivity.
Qed.

(** ** Example: the square root of two *)
Example C42_double_case : (abs 0 <=? 0x1p1000)%float = true /\ (abs 2 <=? 0x1p1000)%float = true /\ (0 <=? 2)%float = true /\
  binarySearch 100 0%float 2%float (fun x => x * x - 2)%float eps8 (-2)%float = Ret 1.4142135642468929%float.
Proof. repeat split; vm_compute; reflexivity. Qed.

Print Assumptions C42_double.
Print Assumptions C42_infinite_end.
