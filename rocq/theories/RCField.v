(** The real and the complex numbers (Coquelicot's C = R * R) as mathcomp fields, so that matrices over them, their determinants and
    characteristic polynomials are available.  No code of /repo is modelled here.  mathcomp asks for a choice operator on every field:
    it comes from the standard library's ClassicalEpsilon. *)
From Coq Require Import Reals ClassicalEpsilon FunctionalExtensionality.
From Coquelicot Require Import Complex.
From mathcomp Require Import ssreflect ssrbool ssrfun eqtype ssrnat choice ssralg.

Section AnyType.
Variable T : Type.
Definition t_eqb (x y : T) : bool := if excluded_middle_informative (x = y) then true else false.
Lemma t_eqP : Equality.axiom t_eqb.
Proof. move=> x y. rewrite /t_eqb. by case: excluded_middle_informative => H; constructor. Qed.
Definition t_find (P : pred T) (n : nat) : option T :=
  match excluded_middle_informative (exists x, P x) with
  | left H => Some (proj1_sig (constructive_indefinite_description (fun x => P x) H))
  | right _ => None
  end.
Lemma t_find_ok : forall P n x, t_find P n = Some x -> P x.
Proof.
  move=> P n x. rewrite /t_find. case: excluded_middle_informative => // H [<-].
  exact: (proj2_sig (constructive_indefinite_description _ H)).
Qed.
Lemma t_find_complete : forall P : pred T, (exists x, P x) -> exists n, t_find P n.
Proof. move=> P H. exists O. rewrite /t_find. by case: excluded_middle_informative. Qed.
Lemma t_find_ext : forall P Q : pred T, P =1 Q -> t_find P =1 t_find Q.
Proof. move=> P Q H n. have -> : P = Q by apply: functional_extensionality. by []. Qed.
Definition t_eqMixin := EqMixin t_eqP.
Definition t_choiceMixin : choiceMixin T := Choice.Mixin t_find_ok t_find_complete t_find_ext.
End AnyType.

Definition R_eqType := EqType R (t_eqMixin R).
Canonical R_eqType.
Definition R_choiceType := ChoiceType R (t_choiceMixin R).
Canonical R_choiceType.
Fact R_addA : associative Rplus. Proof. move=> x y z. by rewrite Rplus_assoc. Qed.
Fact R_addC : commutative Rplus. Proof. exact: Rplus_comm. Qed.
Fact R_add0 : left_id R0 Rplus. Proof. exact: Rplus_0_l. Qed.
Fact R_addN : left_inverse R0 Ropp Rplus. Proof. exact: Rplus_opp_l. Qed.
Definition R_zmodMixin := ZmodMixin R_addA R_addC R_add0 R_addN.
Definition R_zmodType := ZmodType R R_zmodMixin.
Canonical R_zmodType.
Fact R_mulA : associative Rmult. Proof. move=> x y z. by rewrite Rmult_assoc. Qed.
Fact R_mul1 : left_id R1 Rmult. Proof. exact: Rmult_1_l. Qed.
Fact R_mulC : commutative Rmult. Proof. exact: Rmult_comm. Qed.
Fact R_mulD : left_distributive Rmult Rplus. Proof. move=> x y z. exact: Rmult_plus_distr_r. Qed.
Fact R_1n0 : negb (eq_op R1 R0). Proof. apply/eqP. exact: R1_neq_R0. Qed.
Definition R_ringMixin := ComRingMixin R_mulA R_mulC R_mul1 R_mulD R_1n0.
Definition R_ringType := RingType R R_ringMixin.
Canonical R_ringType.
Definition R_comRingType := ComRingType R R_mulC.
Canonical R_comRingType.
Definition R_inv (x : R) : R := if eq_op x R0 then R0 else Rinv x.
Fact R_mulV : forall x : R, negb (eq_op x R0) -> Rmult (R_inv x) x = R1.
Proof. move=> x Hx. rewrite /R_inv (negbTE Hx). apply: Rinv_l. exact/eqP. Qed.
Fact R_inv0 : R_inv R0 = R0. Proof. by rewrite /R_inv eqxx. Qed.
Definition R_unitMixin := FieldUnitMixin R_mulV R_inv0.
Definition R_unitRingType := UnitRingType R R_unitMixin.
Canonical R_unitRingType.
Definition R_comUnitRingType := [comUnitRingType of R].
Canonical R_comUnitRingType.
Definition R_fieldMixin : GRing.Field.mixin_of R_unitRingType. Proof. by move=> x /eqP H; rewrite GRing.unitrE; apply/eqP; rewrite [GRing.mul _ _]R_mulC; apply: R_mulV; apply/eqP. Qed.
Definition R_idomainType := IdomainType R (FieldIdomainMixin R_fieldMixin).
Canonical R_idomainType.
Definition R_fieldType := FieldType R R_fieldMixin.
Canonical R_fieldType.

Definition C_eqType := EqType C (t_eqMixin C).
Canonical C_eqType.
Definition C_choiceType := ChoiceType C (t_choiceMixin C).
Canonical C_choiceType.
Fact C_addA : associative Cplus. Proof. exact: Cplus_assoc. Qed.
Fact C_addC : commutative Cplus. Proof. exact: Cplus_comm. Qed.
Fact C_add0 : left_id (RtoC 0) Cplus. Proof. exact: Cplus_0_l. Qed.
Fact C_addN : left_inverse (RtoC 0) Copp Cplus. Proof. move=> x. rewrite Cplus_comm. exact: Cplus_opp_r. Qed.
Definition C_zmodMixin := ZmodMixin C_addA C_addC C_add0 C_addN.
Definition C_zmodType := ZmodType C C_zmodMixin.
Canonical C_zmodType.
Fact C_mulA : associative Cmult. Proof. exact: Cmult_assoc. Qed.
Fact C_mul1 : left_id (RtoC 1) Cmult. Proof. exact: Cmult_1_l. Qed.
Fact C_mulC : commutative Cmult. Proof. exact: Cmult_comm. Qed.
Fact C_mulD : left_distributive Cmult Cplus. Proof. move=> x y z. exact: Cmult_plus_distr_r. Qed.
Fact C_1n0 : negb (eq_op (RtoC 1) (RtoC 0)). Proof. apply/eqP. case. exact: R1_neq_R0. Qed.
Definition C_ringMixin := ComRingMixin C_mulA C_mulC C_mul1 C_mulD C_1n0.
Definition C_ringType := RingType C C_ringMixin.
Canonical C_ringType.
Definition C_comRingType := ComRingType C C_mulC.
Canonical C_comRingType.
Definition C_inv (x : C) : C := if eq_op x (RtoC 0) then RtoC 0 else Cinv x.
Fact C_mulV : forall x : C, negb (eq_op x (RtoC 0)) -> Cmult (C_inv x) x = RtoC 1.
Proof. move=> x Hx. rewrite /C_inv (negbTE Hx). apply: Cinv_l. exact/eqP. Qed.
Fact C_inv0 : C_inv (RtoC 0) = RtoC 0. Proof. by rewrite /C_inv eqxx. Qed.
Definition C_unitMixin := FieldUnitMixin C_mulV C_inv0.
Definition C_unitRingType := UnitRingType C C_unitMixin.
Canonical C_unitRingType.
Definition C_comUnitRingType := [comUnitRingType of C].
Canonical C_comUnitRingType.
Definition C_fieldMixin : GRing.Field.mixin_of C_unitRingType. Proof. by move=> x /eqP H; rewrite GRing.unitrE; apply/eqP; rewrite [GRing.mul _ _]C_mulC; apply: C_mulV; apply/eqP. Qed.
Definition C_idomainType := IdomainType C (FieldIdomainMixin C_fieldMixin).
Canonical C_idomainType.
Definition C_fieldType := FieldType C C_fieldMixin.
Canonical C_fieldType.

(** Im and Re as the pair's components, i, conjugation *)
Definition Ci_ : C := (R0, R1).
Definition conj (z : C) : C := (fst z, Ropp (snd z)).
Fact RtoC_additive : additive (RtoC : R -> C).
Proof. move=> x y. exact: RtoC_minus. Qed.
Fact RtoC_multiplicative : multiplicative (RtoC : R -> C).
Proof. split=> // x y. exact: RtoC_mult. Qed.
Canonical RtoC_additive_map := Additive RtoC_additive.
Canonical RtoC_rmorphism := AddRMorphism RtoC_multiplicative.
Fact conj_sub : forall x y : C, conj (Cplus x (Copp y)) = Cplus (conj x) (Copp (conj y)).
Proof. move=> x y. rewrite /conj /Cplus /Copp /=. by congr pair; ring. Qed.
Fact conj_mul : forall x y : C, conj (Cmult x y) = Cmult (conj x) (conj y).
Proof. move=> x y. rewrite /conj /Cmult /=. by congr pair; ring. Qed.
Fact conj_additive : additive conj.
Proof. exact: conj_sub. Qed.
Fact conj_multiplicative : multiplicative conj.
Proof.
  split; last by congr pair; exact: Ropp_0.
  exact: conj_mul.
Qed.
Canonical conj_additive_map := Additive conj_additive.
Canonical conj_rmorphism := AddRMorphism conj_multiplicative.
