(** Common vocabulary of the model: the [Scalar] template parameter, C++ outcomes,
    and small list helpers.

    Models the [template<typename Scalar>] parameter that every class of
    /repo/matslise takes (e.g. matslise/matslise.h:21-31), i.e. the set of
    operations the control code applies to a scalar.  No law is assumed here: an
    instance for the reals, one for rationals (to run the model) and one for
    IEEE-754 binary64 (Coq's primitive floats) are given below. *)
From Coq Require Import String ZArith QArith Reals List Bool Lia Floats Uint63.
Import ListNotations.

Class Scalar (T : Type) := {
  sadd : T -> T -> T;
  ssub : T -> T -> T;
  smul : T -> T -> T;
  sdiv : T -> T -> T;
  sopp : T -> T;
  slt : T -> T -> bool;     (* a < b ; in C++, a > b is the same comparison swapped *)
  sle : T -> T -> bool;     (* a <= b *)
  seqb : T -> T -> bool;    (* a == b ; a != b is its negation *)
  sofZ : Z -> T;            (* int -> Scalar conversion *)
  sofQ : Q -> T             (* decimal literal *)
}.

(** Exact reals: the instance almost all theorems are about. *)
Definition Rltb (x y : R) : bool := if Rlt_dec x y then true else false.
Definition Rleb (x y : R) : bool := if Rle_dec x y then true else false.
Definition Reqb (x y : R) : bool := if Req_EM_T x y then true else false.

#[export] Instance Scalar_R : Scalar R := {
  sadd := Rplus; ssub := Rminus; smul := Rmult; sdiv := Rdiv; sopp := Ropp;
  slt := Rltb; sle := Rleb; seqb := Reqb;
  sofZ := IZR; sofQ := fun q => (IZR (Qnum q) / IZR (Zpos (Qden q)))%R
}.

(** Rationals: used to run the model inside Coq (examples). *)
Definition Qltb (x y : Q) : bool := match Qcompare x y with Lt => true | _ => false end.
#[export] Instance Scalar_Q : Scalar Q := {
  sadd := fun x y => Qred (Qplus x y); ssub := fun x y => Qred (Qminus x y);
  smul := fun x y => Qred (Qmult x y); sdiv := fun x y => Qred (Qdiv x y);
  sopp := Qopp;
  slt := Qltb; sle := Qle_bool; seqb := Qeq_bool;
  sofZ := inject_Z; sofQ := fun q => q
}.

(** IEEE-754 doubles ([Scalar = double]).  Integers and decimal literals are rounded to the
    nearest double, ties to even, as C++ does. *)
Definition floatofZ (z : Z) : float := SF2Prim (binary_normalize FloatOps.prec FloatOps.emax z 0 false).
Definition floatofQ (q : Q) : float :=
  match Qnum q with
  | Z0 => 0%float
  | Zpos n => SF2Prim (SFdiv FloatOps.prec FloatOps.emax (S754_finite false n 0) (S754_finite false (Qden q) 0))
  | Zneg n => SF2Prim (SFdiv FloatOps.prec FloatOps.emax (S754_finite true n 0) (S754_finite false (Qden q) 0))
  end.
#[export] Instance Scalar_F : Scalar float := {
  sadd := PrimFloat.add; ssub := PrimFloat.sub; smul := PrimFloat.mul;
  sdiv := PrimFloat.div; sopp := PrimFloat.opp;
  slt := PrimFloat.ltb; sle := PrimFloat.leb; seqb := PrimFloat.eqb;
  sofZ := floatofZ;
  sofQ := floatofQ
}.

(** std::min / std::max of <algorithm>: [std::min(a,b) = (b < a) ? b : a],
    [std::max(a,b) = (a < b) ? b : a] (also used by /repo/matslise/util/sectorbuilder.cpp:158-179). *)
Definition std_min {T} `{Scalar T} (a b : T) : T := if slt b a then b else a.
Definition std_max {T} `{Scalar T} (a b : T) : T := if slt a b then b else a.

(** Order laws used by statements that hold for any scalar type ordered like the
    non-NaN doubles: [ok] are the values that are not NaN. *)
Class OrderLaws (T : Type) `{Scalar T} := {
  ok : T -> Prop;
  ok_lt_l : forall a b, slt a b = true -> ok a;
  ok_lt_r : forall a b, slt a b = true -> ok b;
  ok_le_l : forall a b, sle a b = true -> ok a;
  ok_le_r : forall a b, sle a b = true -> ok b;
  lt_le : forall a b, slt a b = true -> sle a b = true;
  lt_nle : forall a b, slt a b = true -> sle b a = false;
  nlt_le : forall a b, ok a -> ok b -> slt a b = false -> sle b a = true;
  le_trans_s : forall a b c, sle a b = true -> sle b c = true -> sle a c = true;
  le_refl_s : forall a, ok a -> sle a a = true;
  eqb_le : forall a b, seqb a b = true -> sle a b = true /\ sle b a = true
}.

Lemma Rltb_true x y : Rltb x y = true <-> (x < y)%R.
Proof. unfold Rltb; destruct (Rlt_dec x y); split; intros; auto; congruence. Qed.
Lemma Rltb_false x y : Rltb x y = false <-> (y <= x)%R.
Proof.
  unfold Rltb; destruct (Rlt_dec x y) as [H|H]; split; intros K; auto; try congruence.
  - exfalso; apply Rle_not_lt in K; auto.
  - apply Rnot_lt_le; auto.
Qed.
Lemma Rleb_true x y : Rleb x y = true <-> (x <= y)%R.
Proof. unfold Rleb; destruct (Rle_dec x y); split; intros; auto; congruence. Qed.
Lemma Rleb_false x y : Rleb x y = false <-> (y < x)%R.
Proof.
  unfold Rleb; destruct (Rle_dec x y) as [H|H]; split; intros K; auto; try congruence.
  - exfalso; apply Rlt_not_le in K; auto.
  - apply Rnot_le_lt; auto.
Qed.
Lemma Reqb_true x y : Reqb x y = true <-> x = y.
Proof. unfold Reqb; destruct (Req_EM_T x y); split; intros; auto; congruence. Qed.
Lemma Reqb_false x y : Reqb x y = false <-> x <> y.
Proof. unfold Reqb; destruct (Req_EM_T x y); split; intros; auto; congruence. Qed.

#[export] Instance OrderLaws_R : OrderLaws R.
Proof.
  refine {| ok := fun _ => True |}; simpl; auto; intros *;
    rewrite ?Rltb_true, ?Rltb_false, ?Rleb_true, ?Rleb_false, ?Reqb_true; intros; auto;
    repeat match goal with H : _ /\ _ |- _ => destruct H end; subst;
    try (split; apply Rle_refl); try apply Rle_refl; eauto using Rlt_le, Rle_trans.
Defined.

(** What a C++ call can do. [UB] marks undefined behaviour (out-of-range vector
    access, dereference of an empty container, unrepresentable float->int
    conversion), [Fuel] means the given bound on loop iterations was reached. *)
Inductive res (A : Type) : Type :=
| Ret (a : A)
| Throw (msg : string)
| UB (why : string)
| Fuel.
Arguments Ret {A}. Arguments Throw {A}. Arguments UB {A}. Arguments Fuel {A}.

Definition bind {A B} (m : res A) (k : A -> res B) : res B :=
  match m with Ret a => k a | Throw s => Throw s | UB s => UB s | Fuel => Fuel end.
Declare Scope res_scope.
Notation "'do' x <- m ; k" := (bind m (fun x => k)) (at level 200, x pattern, m at level 100, k at level 200) : res_scope.
Open Scope res_scope.

(** v[i] for a std::vector: out of range is undefined behaviour. *)
Definition vget {A} (l : list A) (i : Z) : res A :=
  if (i <? 0)%Z then UB "vector index < 0"
  else match nth_error l (Z.to_nat i) with Some a => Ret a | None => UB "vector index >= size" end.

Lemma vget_in {A} (l : list A) i :
  (0 <= i < Z.of_nat (length l))%Z -> exists a, vget l i = Ret a /\ nth_error l (Z.to_nat i) = Some a.
Proof.
  intros Hi. unfold vget. destruct (Z.ltb_spec i 0); [lia|].
  destruct (nth_error l (Z.to_nat i)) eqn:E; [eauto|].
  apply nth_error_None in E. lia.
Qed.
Lemma vget_ret {A} (l : list A) i a :
  vget l i = Ret a -> (0 <= i < Z.of_nat (length l))%Z /\ nth_error l (Z.to_nat i) = Some a.
Proof.
  unfold vget. destruct (Z.ltb_spec i 0); [discriminate|].
  destruct (nth_error l (Z.to_nat i)) eqn:E; [|discriminate].
  intros K; injection K; intros ->. split; auto.
  assert (Z.to_nat i < length l)%nat by (apply nth_error_Some; congruence). lia.
Qed.

Inductive dir := Dnone | Dfwd | Dbwd.   (* matslise/matslise.h:17-19 enum Direction *)
Definition dir_eqb (a b : dir) : bool :=
  match a, b with Dnone,Dnone | Dfwd,Dfwd | Dbwd,Dbwd => true | _,_ => false end.
