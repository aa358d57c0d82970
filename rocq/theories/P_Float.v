(** Facts about IEEE-754 doubles used to instantiate law-based theorems at [Scalar = double]:
    the order laws on non-NaN doubles, and 1*h == h.  Uses Flocq's connection between Coq's
    primitive floats and its formalisation of binary64. *)
From Coq Require Import String ZArith QArith Reals List Bool Lia Lra Floats.
From Flocq Require Import Core BinarySingleNaN PrimFloat.
From Verif Require Import Base.
Open Scope R_scope.

Definition Bval (b : binary_float prec emax) : R :=
  match b with
  | B754_infinity true => - bpow radix2 emax
  | B754_infinity false => bpow radix2 emax
  | _ => B2R b
  end.
Definition fval (x : PrimFloat.float) : R := Bval (Prim2B x).
Definition fok (x : PrimFloat.float) : Prop := is_nan (Prim2B x) = false.

Lemma Bval_bound (b : binary_float prec emax) : is_finite b = true -> - bpow radix2 emax < B2R b < bpow radix2 emax.
Proof. intros _. pose proof (abs_B2R_lt_emax _ _ b) as H. apply Rabs_def2 in H. lra. Qed.

Lemma Bcmp_val (a b : binary_float prec emax) : is_nan a = false -> is_nan b = false ->
  Bcompare a b = Some (Rcompare (Bval a) (Bval b)).
Proof.
  intros Ha Hb. pose proof (bpow_gt_0 radix2 emax) as Bp.
  destruct (is_finite a) eqn:Fa; destruct (is_finite b) eqn:Fb.
  - rewrite Bcompare_correct by auto. destruct a; destruct b; try discriminate; reflexivity.
  - pose proof (Bval_bound a Fa). destruct b as [| [|] | |]; try discriminate;
      destruct a as [s| | |s m e Hm]; try discriminate; unfold Bval;
      (rewrite Rcompare_Gt by lra) || (rewrite Rcompare_Lt by lra); destruct s; reflexivity.
  - pose proof (Bval_bound b Fb). destruct a as [| [|] | |]; try discriminate;
      destruct b as [s| | |s m e Hm]; try discriminate; unfold Bval;
      (rewrite Rcompare_Gt by lra) || (rewrite Rcompare_Lt by lra); destruct s; reflexivity.
  - destruct a as [| [|] | |]; try discriminate; destruct b as [| [|] | |]; try discriminate; unfold Bval;
      (rewrite Rcompare_Gt by lra) || (rewrite Rcompare_Lt by lra) || (rewrite Rcompare_Eq by lra); reflexivity.
Qed.

Lemma cmp_nan_l (a b : binary_float prec emax) : is_nan a = true -> Bcompare a b = None.
Proof. destruct a; try discriminate. reflexivity. Qed.
Lemma cmp_nan_r (a b : binary_float prec emax) : is_nan b = true -> Bcompare a b = None.
Proof. destruct b; try discriminate. destruct a as [|[|]| |]; reflexivity. Qed.

Lemma fcmp_cases (x y : PrimFloat.float) :
  (fok x /\ fok y /\ PrimFloat.ltb x y = Rltb (fval x) (fval y) /\ PrimFloat.leb x y = Rleb (fval x) (fval y)
     /\ PrimFloat.eqb x y = Reqb (fval x) (fval y)) \/
  (~ (fok x /\ fok y) /\ PrimFloat.ltb x y = false /\ PrimFloat.leb x y = false /\ PrimFloat.eqb x y = false).
Proof.
  unfold fok, fval. rewrite ltb_equiv, leb_equiv, eqb_equiv.
  unfold Bltb, Bleb, Beqb, SFltb, SFleb, SFeqb.
  change (SFcompare (B2SF (Prim2B x)) (B2SF (Prim2B y))) with (Bcompare (Prim2B x) (Prim2B y)).
  destruct (is_nan (Prim2B x)) eqn:Nx; [right; rewrite cmp_nan_l by auto; intuition congruence|].
  destruct (is_nan (Prim2B y)) eqn:Ny; [right; rewrite cmp_nan_r by auto; intuition congruence|].
  left. rewrite Bcmp_val by auto. split; [auto|]. split; [auto|].
  set (a := Bval (Prim2B x)). set (b := Bval (Prim2B y)).
  unfold Rltb, Rleb, Reqb.
  destruct (Rcompare_spec a b); destruct (Rlt_dec a b); destruct (Rle_dec a b); destruct (Req_EM_T a b); try lra; auto.
Qed.

Ltac fcmp := repeat match goal with
  | H : context [PrimFloat.ltb ?x ?y] |- _ => let K := fresh in destruct (fcmp_cases x y) as [K|K]; decompose [and] K; clear K;
       repeat match goal with E : PrimFloat.ltb x y = _ |- _ => rewrite E in *; clear E | E : PrimFloat.leb x y = _ |- _ => rewrite E in *; clear E | E : PrimFloat.eqb x y = _ |- _ => rewrite E in *; clear E end
  | H : context [PrimFloat.leb ?x ?y] |- _ => let K := fresh in destruct (fcmp_cases x y) as [K|K]; decompose [and] K; clear K;
       repeat match goal with E : PrimFloat.ltb x y = _ |- _ => rewrite E in *; clear E | E : PrimFloat.leb x y = _ |- _ => rewrite E in *; clear E | E : PrimFloat.eqb x y = _ |- _ => rewrite E in *; clear E end
  | H : context [PrimFloat.eqb ?x ?y] |- _ => let K := fresh in destruct (fcmp_cases x y) as [K|K]; decompose [and] K; clear K;
       repeat match goal with E : PrimFloat.ltb x y = _ |- _ => rewrite E in *; clear E | E : PrimFloat.leb x y = _ |- _ => rewrite E in *; clear E | E : PrimFloat.eqb x y = _ |- _ => rewrite E in *; clear E end
  end.

Lemma f_lt_iff x y : PrimFloat.ltb x y = true <-> fok x /\ fok y /\ fval x < fval y.
Proof. destruct (fcmp_cases x y) as [[A [B [C _]]]|[A [B _]]]; [rewrite C, Rltb_true; tauto|rewrite B; intuition congruence]. Qed.
Lemma f_le_iff x y : PrimFloat.leb x y = true <-> fok x /\ fok y /\ fval x <= fval y.
Proof. destruct (fcmp_cases x y) as [[A [B [_ [C _]]]]|[A [_ [B _]]]]; [rewrite C, Rleb_true; tauto|rewrite B; intuition congruence]. Qed.
Lemma f_eq_iff x y : PrimFloat.eqb x y = true <-> fok x /\ fok y /\ fval x = fval y.
Proof. destruct (fcmp_cases x y) as [[A [B [_ [_ C]]]]|[A [_ [_ B]]]]; [rewrite C, Reqb_true; tauto|rewrite B; intuition congruence]. Qed.

#[export] Instance OrderLaws_F : OrderLaws PrimFloat.float.
Proof.
  refine {| ok := fok |}; cbn [slt sle seqb Scalar_F]; intros *;
    repeat rewrite ?f_lt_iff, ?f_le_iff, ?f_eq_iff; try (intuition lra).
  - intros [A [B C]]. destruct (PrimFloat.leb b a) eqn:E; auto. apply f_le_iff in E. lra.
  - intros A B C. split; auto. split; auto. destruct (Rlt_dec (fval a) (fval b)) as [L|L]; [|lra].
    assert (PrimFloat.ltb a b = true) by (apply f_lt_iff; auto). congruence.
Defined.

(** For doubles, 1 * h is h itself (bitwise; NaN has a single representation in this model). *)
Lemma f_one_mul (h : PrimFloat.float) : PrimFloat.mul (floatofZ 1) h = h.
Proof.
  change (floatofZ 1) with one. apply Prim2B_inj. rewrite mul_equiv, one_equiv, Prim2B_B2Prim.
  destruct (Prim2B h) as [s|s| |s m e Hm] eqn:E; try reflexivity; try (destruct s; reflexivity).
  pose proof (Bmult_correct prec emax Hprec Hmax mode_NE (@Bone prec emax Hprec Hmax) (B754_finite s m e Hm)) as H.
  rewrite Bone_correct, Rmult_1_l in H.
  rewrite round_generic in H; [|apply valid_rnd_round_mode|apply generic_format_B2R].
  rewrite Rlt_bool_true in H by apply abs_B2R_lt_emax.
  destruct H as [H1 [H2 H3]].
  assert (F1 : is_finite (@Bone prec emax Hprec Hmax) = true) by reflexivity.
  apply B2R_Bsign_inj; auto.
  rewrite H3; [change (Bsign (@Bone prec emax Hprec Hmax)) with false; destruct s; reflexivity|]. destruct (Bmult mode_NE _ (B754_finite s m e Hm)); auto; discriminate.
Qed.
