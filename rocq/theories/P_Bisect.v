(** Bisection on doubles: rounding errors stay small compared with the interval. *)
From Coq Require Import String ZArith QArith List Bool Lia Floats.
From Verif Require Import M_Search.
From Coq Require Import Reals Lra.
From Flocq Require Import Core Relative BinarySingleNaN PrimFloat.
From Verif Require Import Base P_Float M_Periodic M_Bindings.
Open Scope R_scope.

Definition val (x : PrimFloat.float) : R := B2R (Prim2B x).
Definition fin (x : PrimFloat.float) : Prop := is_finite (Prim2B x) = true.
Definition rnd : R -> R := round radix2 (fexp prec emax) (round_mode mode_NE).

Lemma bpow_num : forall e n, (0 <= e)%Z -> Zpower 2 e = n -> bpow radix2 e = IZR n.
Proof. intros e n He <-. symmetry. apply (IZR_Zpower radix2). exact He. Qed.
Lemma rnd_near : forall x, Rabs (rnd x - x) <= (Rabs x + 1) / 1000000000000000.
Proof.
  intro x. destruct (error_N_FLT radix2 (SpecFloat.emin prec emax) prec ltac:(reflexivity) (fun x => negb (Z.even x)) x) as (e & t & He & Ht & _ & E).
  change (round radix2 (FLT_exp (SpecFloat.emin prec emax) prec) (Znearest (fun x => negb (Z.even x))) x) with (rnd x) in E.
  rewrite E. replace (x * (1 + e) + t - x) with (x * e + t) by ring.
  assert (Rabs e <= / 1000000000000000) as He'. { eapply Rle_trans; [exact He|]. change (- prec + 1)%Z with (- (52))%Z. rewrite bpow_opp, (bpow_num 52 4503599627370496 ltac:(discriminate) ltac:(reflexivity)). lra. }
  assert (Rabs t <= / 1000000000000000) as Ht'.
  { eapply Rle_trans; [exact Ht|]. apply Rle_trans with (/ 2 * bpow radix2 (-52)); [|change (-52)%Z with (- (52))%Z; rewrite bpow_opp, (bpow_num 52 4503599627370496 ltac:(discriminate) ltac:(reflexivity)); lra]. apply Rmult_le_compat_l; [lra|]. apply bpow_le. discriminate. }
  eapply Rle_trans; [apply Rabs_triang|]. rewrite Rabs_mult. pose proof (Rabs_pos x) as P.
  apply Rle_trans with (Rabs x * / 1000000000000000 + / 1000000000000000); [|lra]. apply Rplus_le_compat; [|exact Ht']. apply Rmult_le_compat_l; assumption.
Qed.
Definition big : R := bpow radix2 1000.
Lemma big_1 : 1 <= big.
Proof. unfold big. change 1 with (bpow radix2 0). apply bpow_le. discriminate. Qed.
Lemma rnd_fits : forall x, Rabs x <= 4 * big -> Rlt_bool (Rabs (rnd x)) (bpow radix2 emax) = true.
Proof.
  intros x H. apply Rlt_bool_true. pose proof (rnd_near x) as N. pose proof big_1 as B1.
  assert (Rabs (rnd x) <= Rabs x + (Rabs x + 1) / 1000000000000000). { replace (rnd x) with (x + (rnd x - x)) by ring. eapply Rle_trans; [apply Rabs_triang|]. lra. }
  assert (8 * big <= bpow radix2 emax). { unfold big. change 8 with (bpow radix2 3). rewrite <- bpow_plus. apply bpow_le. discriminate. }
  lra.
Qed.
Lemma add_val : forall x y, fin x -> fin y -> Rabs (val x + val y) <= 4 * big -> fin (x + y) /\ val (x + y) = rnd (val x + val y).
Proof.
  intros x y Fx Fy H. unfold fin, val. rewrite add_equiv. pose proof (Bplus_correct prec emax Hprec Hmax mode_NE _ _ Fx Fy) as C. pose proof (rnd_fits _ H) as Rf.
  match type of C with if ?b then _ else _ => replace b with true in C by (symmetry; exact Rf) end. destruct C as (A & B & _). auto.
Qed.
Lemma sub_val : forall x y, fin x -> fin y -> Rabs (val x - val y) <= 4 * big -> fin (x - y) /\ val (x - y) = rnd (val x - val y).
Proof.
  intros x y Fx Fy H. unfold fin, val. rewrite sub_equiv. pose proof (Bminus_correct prec emax Hprec Hmax mode_NE _ _ Fx Fy) as C. pose proof (rnd_fits _ H) as Rf.
  match type of C with if ?b then _ else _ => replace b with true in C by (symmetry; exact Rf) end. destruct C as (A & B & _). auto.
Qed.
Lemma mul_val : forall x y, fin x -> fin y -> Rabs (val x * val y) <= 4 * big -> fin (x * y) /\ val (x * y) = rnd (val x * val y).
Proof.
  intros x y Fx Fy H. unfold fin, val. rewrite mul_equiv. pose proof (Bmult_correct prec emax Hprec Hmax mode_NE (Prim2B x) (Prim2B y)) as C. pose proof (rnd_fits _ H) as Rf.
  match type of C with if ?b then _ else _ => replace b with true in C by (symmetry; exact Rf) end. destruct C as (A & B & _). rewrite B, Fx, Fy. auto.
Qed.
Lemma div_val : forall x y, fin x -> val y <> 0 -> Rabs (val x / val y) <= 4 * big -> fin (x / y) /\ val (x / y) = rnd (val x / val y).
Proof.
  intros x y Fx Hy H. unfold fin, val. rewrite div_equiv. pose proof (Bdiv_correct prec emax Hprec Hmax mode_NE (Prim2B x) (Prim2B y) Hy) as C. pose proof (rnd_fits _ H) as Rf.
  match type of C with if ?b then _ else _ => replace b with true in C by (symmetry; exact Rf) end. destruct C as (A & B & _). rewrite B. auto.
Qed.
Lemma abs_val : forall x, fin x -> fin (abs x) /\ val (abs x) = Rabs (val x).
Proof. intros x F. unfold fin, val. rewrite abs_equiv, is_finite_Babs, B2R_Babs. auto. Qed.
Lemma fin_fval : forall x, fin x -> fok x /\ fval x = val x.
Proof. intros x F. unfold fin, fok, fval, val in *. destruct (Prim2B x); try discriminate; auto. Qed.
Lemma lt_val : forall x y, fin x -> fin y -> (x <? y)%float = Rltb (val x) (val y).
Proof.
  intros x y Fx Fy. destruct (fin_fval x Fx) as (Ox & Vx). destruct (fin_fval y Fy) as (Oy & Vy). destruct (Rltb (val x) (val y)) eqn:L.
  - apply Rltb_true in L. apply f_lt_iff. rewrite Vx, Vy. auto.
  - apply Rltb_false in L. apply not_true_iff_false. intro G. apply f_lt_iff in G. destruct G as (_ & _ & G). rewrite Vx, Vy in G. lra.
Qed.
Lemma const_val : forall x s m e, Prim2SF x = S754_finite s m e -> fin x /\ val x = F2R (Float radix2 (cond_Zopp s (Zpos m)) e).
Proof.
  intros x s m e E. unfold fin, val, Prim2B. split.
  - rewrite is_finite_SF2B. rewrite E. reflexivity.
  - rewrite B2R_SF2B. rewrite E. reflexivity.
Qed.
Lemma sf_one : Prim2SF (floatofZ 1) = S754_finite false 4503599627370496 (-52).
Proof. vm_compute. reflexivity. Qed.
Lemma sf_two : Prim2SF (floatofZ 2) = S754_finite false 4503599627370496 (-51).
Proof. vm_compute. reflexivity. Qed.
Lemma sf_eps : Prim2SF (floatofQ (1 # 100000000)) = S754_finite false 6044629098073146 (-79).
Proof. vm_compute. reflexivity. Qed.
Lemma m52 : IZR 4503599627370496 = bpow radix2 52.
Proof. symmetry. apply bpow_num; [discriminate|reflexivity]. Qed.
Lemma val_one : fin (floatofZ 1) /\ val (floatofZ 1) = 1.
Proof. destruct (const_val _ _ _ _ sf_one) as (A & B). split; [exact A|]. rewrite B. unfold F2R. cbn [Fnum Fexp cond_Zopp]. rewrite m52, <- bpow_plus. reflexivity. Qed.
Lemma val_two : fin (floatofZ 2) /\ val (floatofZ 2) = 2.
Proof. destruct (const_val _ _ _ _ sf_two) as (A & B). split; [exact A|]. rewrite B. unfold F2R. cbn [Fnum Fexp cond_Zopp]. rewrite m52, <- bpow_plus. reflexivity. Qed.
Lemma val_eps : fin (floatofQ (1 # 100000000)) /\ 99 / 10000000000 <= val (floatofQ (1 # 100000000)) <= 101 / 10000000000.
Proof.
  destruct (const_val _ _ _ _ sf_eps) as (A & B). split; [exact A|]. rewrite B. unfold F2R. cbn [Fnum Fexp cond_Zopp].
  change (-79)%Z with (- (79))%Z. rewrite bpow_opp, (bpow_num 79 604462909807314587353088 ltac:(discriminate) ltac:(reflexivity)). lra.
Qed.
Lemma format_val : forall x, generic_format radix2 (fexp prec emax) (val x).
Proof. intro x. apply generic_format_B2R. Qed.
Lemma format_double : forall x, generic_format radix2 (fexp prec emax) x -> generic_format radix2 (fexp prec emax) (2 * x).
Proof.
  intros x F. destruct (@FLT_format_generic radix2 (SpecFloat.emin prec emax) prec Hprec x F) as [f E Hn He].
  apply (@generic_format_FLT radix2 (SpecFloat.emin prec emax) prec). exists (Float radix2 (Fnum f) (Fexp f + 1)); cbn [Fnum Fexp]; [|exact Hn|lia].
  rewrite E. unfold F2R. cbn [Fnum Fexp]. rewrite bpow_plus. change (bpow radix2 1) with 2. ring.
Qed.
Lemma rnd_mono : forall x y, x <= y -> rnd x <= rnd y.
Proof. intros x y H. apply round_le; [apply FLT_exp_valid; reflexivity|apply valid_rnd_N|exact H]. Qed.
Lemma rnd_id : forall x, generic_format radix2 (fexp prec emax) x -> rnd x = x.
Proof. intros x F. apply round_generic; [apply valid_rnd_N|exact F]. Qed.
Definition middle (a b : PrimFloat.float) : PrimFloat.float := ((a + b) / floatofZ 2)%float.
Lemma mid_val : forall a b, fin a -> fin b -> val a <= val b -> Rabs (val a) <= big -> Rabs (val b) <= big ->
  fin (middle a b) /\ val a <= val (middle a b) <= val b /\
  Rabs (val (middle a b) - (val a + val b) / 2) <= 2 * (Rabs (val a) + Rabs (val b) + 1) / 1000000000000000.
Proof.
  intros a b Fa Fb L Ba Bb. destruct val_two as (F2 & V2). pose proof (Rabs_triang (val a) (val b)) as T. pose proof big_1 as B1.
  destruct (add_val a b Fa Fb) as (Fs & Vs); [lra|]. pose proof (rnd_near (val a + val b)) as N1. rewrite <- Vs in N1.
  assert (2 * val a <= val (a + b) <= 2 * val b) as S2.
  { rewrite Vs. rewrite <- (rnd_id (2 * val a)) by apply format_double, format_val. rewrite <- (rnd_id (2 * val b)) by apply format_double, format_val. split; apply rnd_mono; lra. }
  assert (Rabs (val (a + b) / 2) <= big) as Bs. { apply Rabs_le. apply Rabs_le_inv in Ba. apply Rabs_le_inv in Bb. lra. }
  destruct (div_val (a + b) (floatofZ 2) Fs) as (Fm & Vm); [rewrite V2; lra|rewrite V2; lra|]. rewrite V2 in Vm. pose proof (rnd_near (val (a + b) / 2)) as N2. rewrite <- Vm in N2. fold (middle a b) in *.
  split; [exact Fm|]. split.
  - rewrite Vm. rewrite <- (rnd_id (val a)) by apply format_val. rewrite <- (rnd_id (val b)) by apply format_val. split; apply rnd_mono; rewrite ?(rnd_id _ (format_val _)); lra.
  - set (m := val (middle a b)) in *. set (s := val (a + b)%float) in *. set (A := val a) in *. set (B := val b) in *. clearbody m s A B. clear - N1 N2 T.
    assert (Rabs (s / 2) <= (Rabs (A + B) + (Rabs (A + B) + 1) / 1000000000000000) / 2) as Q.
    { unfold Rdiv at 1. rewrite Rabs_mult, (Rabs_pos_eq (/ 2)) by lra. replace s with ((A + B) + (s - (A + B))) by ring. pose proof (Rabs_triang (A + B) (s - (A + B))). lra. }
    replace (m - (A + B) / 2) with ((m - s / 2) + (s - (A + B)) / 2) by field. eapply Rle_trans; [apply Rabs_triang|].
    replace (Rabs ((s - (A + B)) / 2)) with (Rabs (s - (A + B)) / 2) by (unfold Rdiv; rewrite Rabs_mult, (Rabs_pos_eq (/ 2)) by lra; reflexivity).
    pose proof (Rabs_pos (A + B)). lra.
Qed.
(** the loop's test *)
Notation epsf := (floatofQ (1 # 100000000)).
Definition wide (a b : PrimFloat.float) : bool := ((if (abs a <? floatofZ 1)%float then epsf else (epsf * abs a)%float) <? (b - a))%float.
Definition scale (a : R) : R := Rmax 1 (Rabs a).
Lemma wide_val : forall a b, fin a -> fin b -> val a <= val b -> Rabs (val a) <= big -> Rabs (val b) <= big ->
  (wide a b = true -> 98 / 10000000000 * scale (val a) <= val b - val a) /\
  (wide a b = false -> val b - val a <= 102 / 10000000000 * scale (val a)).
Proof.
  intros a b Fa Fb L Ba Bb. destruct val_one as (F1 & V1). destruct val_eps as (Fe & Ve). pose proof big_1 as B1.
  assert (Rabs (val b - val a) <= 4 * big) as Bw. { apply Rabs_le. apply Rabs_le_inv in Ba. apply Rabs_le_inv in Bb. lra. }
  destruct (sub_val b a Fb Fa Bw) as (Fw & Vw). pose proof (rnd_near (val b - val a)) as N1. rewrite <- Vw in N1. rewrite (Rabs_pos_eq (val b - val a)) in N1 by lra.
  destruct (abs_val a Fa) as (Fab & Vab). unfold wide. rewrite (lt_val _ _ Fab F1), Vab, V1. unfold scale. apply Rabs_le_inv in N1. destruct (Rltb (Rabs (val a)) 1) eqn:S.
  - apply Rltb_true in S. rewrite Rmax_left by lra. rewrite (lt_val _ _ Fe Fw). destruct (Rltb (val epsf) (val (b - a))) eqn:G; split; try discriminate; intros _; [apply Rltb_true in G|apply Rltb_false in G]; lra.
  - apply Rltb_false in S. rewrite Rmax_right by lra. assert (99 / 10000000000 * Rabs (val a) <= val epsf * Rabs (val a) <= 101 / 10000000000 * Rabs (val a)) as P by (destruct Ve; split; apply Rmult_le_compat_r; try apply Rabs_pos; assumption).
    assert (Rabs (val epsf * val (abs a)) <= 4 * big) as Bp by (rewrite Vab, Rabs_pos_eq; lra).
    destruct (mul_val _ _ Fe Fab Bp) as (Fp & Vp). pose proof (rnd_near (val epsf * val (abs a))) as N2. rewrite <- Vp in N2. rewrite Vab, (Rabs_pos_eq (val epsf * Rabs (val a))) in N2 by lra. apply Rabs_le_inv in N2.
    rewrite (lt_val _ _ Fp Fw). destruct (Rltb (val (epsf * abs a)) (val (b - a))) eqn:G; split; try discriminate; intros _; [apply Rltb_true in G|apply Rltb_false in G]; lra.
Qed.
Lemma mid_shrinks : forall a b, fin a -> fin b -> val a <= val b -> Rabs (val a) <= big -> Rabs (val b) <= big -> wide a b = true ->
  val (middle a b) - val a <= 3 / 5 * (val b - val a) /\ val b - val (middle a b) <= 3 / 5 * (val b - val a).
Proof.
  intros a b Fa Fb L Ba Bb W. pose proof (proj1 (wide_val a b Fa Fb L Ba Bb) W) as Q. destruct (mid_val a b Fa Fb L Ba Bb) as (_ & _ & M). apply Rabs_le_inv in M.
  unfold scale in Q. pose proof (Rmax_l 1 (Rabs (val a))). pose proof (Rmax_r 1 (Rabs (val a))). assert (Rabs (val b) <= Rabs (val a) + (val b - val a)).
  { replace (val b) with (val a + (val b - val a)) at 1 by ring. eapply Rle_trans; [apply Rabs_triang|]. rewrite (Rabs_pos_eq (val b - val a)) by lra. lra. }
  lra.
Qed.
