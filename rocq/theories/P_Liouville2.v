(** The change of variables behind the Liouville transformation. *)
From Coq Require Import Reals ZArith Bool Lia Lra.
From Coquelicot Require Import Coquelicot.
From Coq Require Import List.
From Verif Require Import Base M_Poly S_Poly P_Poly M_Core P_Core M_Liouville S_Liouville P_Liouville.
Import ListNotations.
Open Scope R_scope.

Lemma sqrt_pw a b : 0 < a -> 0 < b -> a * sqrt (b / a) = sqrt (a * b).
Proof.
  intros A B. rewrite <- (sqrt_square a) at 1 by lra. rewrite <- sqrt_mult_alt by nra. f_equal. field; lra.
Qed.
Lemma sigma_form c nr : 0 < peval (pp c) nr -> 0 < peval (pw c) nr ->
  sigma_at c nr = 1 / sqrt (sqrt (peval (pp c) nr * peval (pw c) nr)).
Proof. intros. unfold sigma_at, xdr_at. rewrite sqrt_pw; auto. Qed.

Lemma qroot_derive (u : R -> R) (u1 x : R) : 0 < u x -> is_derive u x u1 ->
  is_derive (fun t => sqrt (sqrt (u t))) x (u1 / (4 * u x) * sqrt (sqrt (u x))).
Proof.
  intros P D. assert (S1 := sqrt_lt_R0 _ P). assert (S2 := sqrt_lt_R0 _ S1).
  evar_last.
  - apply (is_derive_comp sqrt (fun t => sqrt (u t))).
    + apply is_derive_sqrt; [|exact S1]. apply is_derive_id.
    + apply is_derive_sqrt; [exact D|exact P].
  - unfold scal; simpl; unfold mult; simpl.
    set (s := sqrt (u x)) in *. set (m := sqrt s) in *.
    assert (u x = s * s) as E by (unfold s; rewrite sqrt_sqrt; lra).
    assert (s = m * m) as E2 by (unfold m; rewrite sqrt_sqrt; lra).
    rewrite E, E2. unfold one; simpl. field. lra.
Qed.
Lemma iqroot_derive (u : R -> R) (u1 x : R) : 0 < u x -> is_derive u x u1 ->
  is_derive (fun t => 1 / sqrt (sqrt (u t))) x (- (1/4) * (1 / sqrt (sqrt (u x))) * (u1 / u x)).
Proof.
  intros P D. assert (S1 := sqrt_lt_R0 _ P). assert (S2 := sqrt_lt_R0 _ S1).
  pose proof (qroot_derive u u1 x P D) as Q.
  evar_last.
  - apply is_derive_ext with (fun t => / sqrt (sqrt (u t))); [intros; symmetry; apply Rmult_1_l|].
    apply is_derive_inv; [exact Q|lra].
  - cbv beta. field. split; lra.
Qed.

(** ** y = z / sigma solves the Schroedinger equation *)
Section Change.
Variables (p w q z z1 p1 w1 Rr f1 f2 : R -> R) (a b c d E : R).
Hypothesis Hp : forall r, a < r < b -> 0 < p r /\ is_derive p r (p1 r).
Hypothesis Hw : forall r, a < r < b -> 0 < w r /\ is_derive w r (w1 r).
Hypothesis Hz : forall r, a < r < b -> sl_solves_at p q w z z1 E r.
Hypothesis HR : forall x, c < x < d -> a < Rr x < b /\ is_derive Rr x (sqrt (p (Rr x) / w (Rr x))).
Hypothesis Hf1 : forall x, c < x < d -> is_derive (fun t => p (Rr t) * w (Rr t)) x (f1 x).
Hypothesis Hf2 : forall x, c < x < d -> is_derive f1 x (f2 x).

Definition mm x := sqrt (sqrt (p (Rr x) * w (Rr x))).
Definition gg x := f1 x / (4 * (p (Rr x) * w (Rr x))).
Definition yy x := z (Rr x) * mm x.
Definition uu x := p (Rr x) * z1 (Rr x) / mm x + gg x * yy x.

Lemma fpos x : c < x < d -> 0 < p (Rr x) * w (Rr x).
Proof. intros H. destruct (HR x H) as [I _]. destruct (Hp _ I), (Hw _ I). now apply Rmult_lt_0_compat. Qed.
Lemma mpos x : c < x < d -> 0 < mm x.
Proof. intros H. apply sqrt_lt_R0, sqrt_lt_R0, fpos; auto. Qed.
Lemma mm_d x : c < x < d -> is_derive mm x (gg x * mm x).
Proof. intros H. apply (qroot_derive (fun t => p (Rr t) * w (Rr t))); [now apply fpos|auto]. Qed.
Lemma m4 x : c < x < d -> mm x * mm x = sqrt (p (Rr x) * w (Rr x)).
Proof. intros H. unfold mm. apply sqrt_sqrt, sqrt_pos. Qed.
Lemma rho x : c < x < d -> sqrt (p (Rr x) / w (Rr x)) = (mm x * mm x) / w (Rr x) /\ sqrt (p (Rr x) / w (Rr x)) * (mm x * mm x) = p (Rr x).
Proof.
  intros H. destruct (HR x H) as [I _]. destruct (Hp _ I) as [P _], (Hw _ I) as [W _].
  rewrite m4 by auto. split.
  - rewrite (Rmult_comm (p _) (w _)), <- sqrt_pw by auto. field; lra.
  - rewrite <- sqrt_mult_alt by (apply Rlt_le, Rdiv_lt_0_compat; auto).
    replace (p (Rr x) / w (Rr x) * (p (Rr x) * w (Rr x))) with (p (Rr x) * p (Rr x)) by (field; lra).
    apply sqrt_square; lra.
Qed.
Lemma yy_d x : c < x < d -> is_derive yy x (uu x).
Proof.
  intros H. destruct (HR x H) as [I D]. pose proof (mpos x H) as M. pose proof (mm_d x H) as DM.
  destruct (Hz _ I) as [Z _]. pose proof (is_derive_comp z Rr x _ _ Z D) as ZR.
  pose proof (is_derive_multR _ _ _ _ _ ZR DM) as K.
  evar_last; [exact K|]. unfold scal; simpl; unfold mult; simpl. unfold uu, yy.
  destruct (rho x H) as [_ R2]. set (s := sqrt (p (Rr x) / w (Rr x))) in *.
  replace (p (Rr x) * z1 (Rr x) / mm x) with (s * mm x * z1 (Rr x)) by (rewrite <- R2; field; lra). ring.
Qed.
Lemma uu_d x : c < x < d ->
  is_derive uu x ((q (Rr x) / w (Rr x) - 3 * ((f1 x / (4 * (p (Rr x) * w (Rr x)))) * (f1 x / (4 * (p (Rr x) * w (Rr x)))))
                   + f2 x / (4 * (p (Rr x) * w (Rr x))) - E) * yy x).
Proof.
  intros H. destruct (HR x H) as [I D]. pose proof (mpos x H) as M. pose proof (mm_d x H) as DM. pose proof (fpos x H) as F.
  destruct (Hp _ I) as [P _], (Hw _ I) as [W _].
  destruct (Hz _ I) as [_ Z]. pose proof (is_derive_comp (fun t => p t * z1 t) Rr x _ _ Z D) as ZR.
  pose proof (is_derive_div _ mm x _ _ ZR DM ltac:(lra)) as K1.
  assert (is_derive gg x (f2 x / (4 * (p (Rr x) * w (Rr x))) - 4 * gg x * gg x)) as K2.
  { unfold gg at 1.
    assert (is_derive (fun t => 4 * (p (Rr t) * w (Rr t))) x (4 * f1 x)) as F4 by (apply (is_derive_scal (fun t => p (Rr t) * w (Rr t)) x 4); auto).
    evar_last; [apply (is_derive_div f1 (fun t => 4 * (p (Rr t) * w (Rr t)))); [auto|exact F4|lra]|].
    unfold gg. field. split; lra. }
  pose proof (is_derive_multR _ _ _ _ _ K2 (yy_d x H)) as K3.
  pose proof (is_derive_plusR _ _ _ _ _ K1 K3) as K.
  evar_last; [exact K|]. unfold scal; simpl; unfold mult; simpl.
  destruct (rho x H) as [R1 _]. rewrite R1. unfold uu, yy. fold (gg x).
  match goal with |- ?a = ?b => change (@eq R a b) end. unfold gg. field. repeat split; lra.
Qed.
(** f1 is the chain-rule derivative *)
Lemma f1_eq x : c < x < d -> f1 x = (p1 (Rr x) * w (Rr x) + p (Rr x) * w1 (Rr x)) * sqrt (p (Rr x) / w (Rr x)).
Proof.
  intros H. destruct (HR x H) as [I D]. destruct (Hp _ I) as [P DP], (Hw _ I) as [W DW].
  pose proof (is_derive_multR _ _ _ _ _ DP DW) as K.
  pose proof (is_derive_comp (fun t => p t * w t) Rr x _ _ K D) as K2.
  pose proof (is_derive_unique _ _ _ (Hf1 x H)) as U1. pose proof (is_derive_unique _ _ _ K2) as U2.
  rewrite <- U1. etransitivity; [exact U2|]. unfold scal; simpl; unfold mult; simpl. ring.
Qed.
(** the derivative computed from (z, z') as z2y does *)
Lemma uu_eq x : c < x < d ->
  uu x = (z1 (Rr x) - - (1/4) * (1 / mm x) * (p1 (Rr x) / p (Rr x) + w1 (Rr x) / w (Rr x)) * yy x) * (1 / (1 / mm x * sqrt (w (Rr x) / p (Rr x)))).
Proof.
  intros H. destruct (HR x H) as [I _]. destruct (Hp _ I) as [P _], (Hw _ I) as [W _]. pose proof (mpos x H) as M.
  unfold uu, gg. rewrite (f1_eq x H). destruct (rho x H) as [R1 R2].
  assert (0 < sqrt (p (Rr x) / w (Rr x))) as S0 by (apply sqrt_lt_R0, Rdiv_lt_0_compat; auto).
  assert (sqrt (w (Rr x) / p (Rr x)) = 1 / sqrt (p (Rr x) / w (Rr x))) as ->.
  { apply Rmult_eq_reg_r with (sqrt (p (Rr x) / w (Rr x))); [|lra].
    rewrite <- sqrt_mult_alt by (apply Rlt_le, Rdiv_lt_0_compat; auto).
    replace (w (Rr x) / p (Rr x) * (p (Rr x) / w (Rr x))) with 1 by (field; lra). rewrite sqrt_1. field; lra. }
  set (s := sqrt _) in *. set (P0 := p (Rr x)) in *. set (W0 := w (Rr x)) in *. 
  replace (P0 * z1 (Rr x) / mm x) with (s * mm x * z1 (Rr x)) by (rewrite <- R2; field; lra).
  field. repeat split; lra.
Qed.
End Change.

(** the polynomial of a piece as a function of r or x *)
Lemma peval_derive p t : p <> [] -> is_derive (peval p) t (pderiv_at 1 p t).
Proof.
  intros N. apply is_derive_ext with (polyval p); [intros; now rewrite peval_spec|].
  rewrite pderiv_at_spec. apply (pderiv_n 1 p t).
Qed.
Lemma peval_derive2 p t : p <> [] -> is_derive (pderiv_at 1 p) t (pderiv_at 2 p t).
Proof.
  intros N. apply is_derive_ext with (fun y => polyval (pderiv 1 p) y); [intros; now rewrite pderiv_at_spec|].
  rewrite pderiv_at_spec. apply (pderiv_step 1 p t).
Qed.
Lemma affine_comp (g : R -> R) g1 t m h : h <> 0 -> is_derive g ((t - m) / h) g1 -> is_derive (fun s => g ((s - m) / h)) t (g1 / h).
Proof.
  intros H D. evar_last; [apply (is_derive_comp g (fun s => (s - m) / h)); [exact D|]|].
  - auto_derive; [auto|reflexivity].
  - unfold scal; simpl; unfold mult; simpl. field; auto.
Qed.
