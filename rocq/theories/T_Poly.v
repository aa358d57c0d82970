(** C09, C10: polynomial arithmetic, derivatives, integrals. *)
From Coq Require Import Reals List Lia Lra.
From Coquelicot Require Import Coquelicot.
From Verif Require Import M_Sectors M_Poly S_Poly P_Eval P_Poly.
Import ListNotations.
Open Scope R_scope.

(** Evaluation (Horner) is the mathematical value; a Polynomial always has >= 1 coefficient. *)
Theorem C09_eval p x : p <> [] -> peval p x = polyval p x.
Proof. apply peval_spec. Qed.
Theorem C09_ring p q x c : p <> [] -> q <> [] ->
  peval (padd p q) x = peval p x + peval q x /\
  peval (psub p q) x = peval p x - peval q x /\
  peval (pmul p q) x = peval p x * peval q x /\
  peval (popp p) x = - peval p x /\
  peval (padds p c) x = peval p x + c /\
  peval (psubs p c) x = peval p x - c /\
  peval (srsub c p) x = c - peval p x /\
  peval (pmuls p c) x = peval p x * c /\
  peval (pdivs p c) x = peval p x / c.
Proof.
  intros Hp Hq. pose proof (len_pos p Hp) as Lp. pose proof (len_pos q Hq) as Lq.
  assert (NE : forall r : poly, (0 < length r)%nat -> r <> []) by (intros [|? ?]; simpl; [lia|congruence]).
  destruct (padd_spec p q x Hp Hq) as [A1 A2]. destruct (psub_spec p q x Hp Hq) as [B1 B2]. destruct (pmul_spec p q x Hp Hq) as [C1 C2].
  assert (L : popp p <> [] /\ padds p c <> [] /\ psubs p c <> [] /\ srsub c p <> [] /\ pmuls p c <> [] /\ pdivs p c <> []).
  { repeat split; apply NE; unfold srsub, padds, psubs, popp, pmuls, pdivs; rewrite ?top_add_length, ?top_sub_length, ?map_length; lia. }
  destruct L as [L1 [L2 [L3 [L4 [L5 L6]]]]].
  assert (L7 : padd p q <> [] /\ psub p q <> [] /\ pmul p q <> []) by (repeat split; apply NE; lia).
  destruct L7 as [L7 [L8 L9]].
  rewrite !peval_spec by auto.
  unfold popp, pmuls, pdivs, srsub, padds, psubs. unfold popp.
  rewrite !top_add_spec, top_sub_spec by (simpl; rewrite ?map_length; lia).
  rewrite (polyval_map_scale Ropp (-1)), (polyval_map_scale (fun a => a * c) c), (polyval_map_scale (fun a => a / c) (/ c)) by (intros; unfold Rdiv; ring).
  rewrite !polyval_cons, !polyval_nil. unfold Rdiv. repeat split; auto; ring.
Qed.
(** left - right where left has the lower degree (the reversed operator of polynomial.h:81-85). *)
Theorem C09_reversed_sub p q x : p <> [] -> (length p <= length q)%nat -> peval (prsub p q) x = peval p x - peval q x.
Proof.
  intros Hp Hl. pose proof (len_pos p Hp). assert (Hq : q <> []) by (intros ->; simpl in *; lia).
  assert (Hr : prsub p q <> []). { intros E. apply (f_equal (@length R)) in E. unfold prsub, popp in E. rewrite top_add_length, map_length in E. simpl in E. lia. }
  rewrite !peval_spec by auto. unfold prsub, popp. rewrite top_add_spec by (rewrite map_length; lia).
  rewrite (polyval_map_scale Ropp (-1)) by (intros; ring). lra.
Qed.
(** Widening the degree and constant / initializer-list construction do not change values. *)
Theorem C09_widen p n x : p <> [] -> peval (widen n p) x = peval p x.
Proof.
  intros Hp. rewrite !peval_spec; auto; [apply widen_spec|]. unfold widen. destruct p; [congruence|discriminate].
Qed.
Theorem C09_construct n c l x : peval (pconst n c) x = c /\ (l <> [] -> peval (pinit n l) x = polyval l x).
Proof.
  split.
  - rewrite peval_spec by discriminate. change (pconst n c) with ([c] ++ repeat 0 n). rewrite polyval_zeros, polyval_cons, polyval_nil. lra.
  - intros Hl. rewrite peval_spec; [apply polyval_zeros|]. unfold pinit. destruct l; [congruence|discriminate].
Qed.
(** Degrees of the results. *)
Theorem C09_degrees p q : p <> [] -> q <> [] ->
  degree (padd p q) = Nat.max (degree p) (degree q) /\ degree (psub p q) = Nat.max (degree p) (degree q) /\
  degree (pmul p q) = (degree p + degree q)%nat.
Proof.
  intros Hp Hq. pose proof (len_pos p Hp). pose proof (len_pos q Hq). unfold degree.
  destruct (padd_spec p q 0 Hp Hq) as [_ ->]. destruct (psub_spec p q 0 Hp Hq) as [_ ->]. destruct (pmul_spec p q 0 Hp Hq) as [_ ->]. lia.
Qed.
Example C09_ex : peval (pmul [1; 2] [3; 0; 1]) 2 = 35.
Proof. destruct (C09_ring [1; 2] [3; 0; 1] 2 1) as [_ [_ [-> _]]]; try discriminate. unfold peval, degree, coef; cbn -[Rmult Rplus IZR]. ring. Qed.

(** derivative<d>() is the d-th derivative, for d <= degree. *)
Theorem C10_derivative d p x : p <> [] -> (d <= degree p)%nat -> is_derive_n (peval p) d x (peval (pderiv d p) x).
Proof.
  intros Hp Hd. unfold degree in Hd. pose proof (len_pos p Hp).
  rewrite peval_spec. 2:{ intros E. apply (f_equal (@length R)) in E. rewrite pderiv_length in E. simpl in E. lia. }
  apply (is_derive_n_ext (polyval p)); [intros; symmetry; apply peval_spec; auto|]. apply pderiv_n.
Qed.
(** derivative<d>(x) for every d (0 when d > degree). *)
Theorem C10_derivative_at d p x : p <> [] -> is_derive_n (peval p) d x (pderiv_at d p x).
Proof.
  intros Hp. rewrite pderiv_at_spec. apply (is_derive_n_ext (polyval p)); [intros; symmetry; apply peval_spec; auto|]. apply pderiv_n.
Qed.
(** integral() is the antiderivative vanishing at 0, integral(x) its value, the integral from 0 to x. *)
Theorem C10_integral p x : p <> [] ->
  is_derive (peval (pint p)) x (peval p x) /\ peval (pint p) 0 = 0 /\ pint_at p x = peval (pint p) x /\ is_RInt (peval p) 0 x (pint_at p x).
Proof.
  intros Hp. assert (Hi : pint p <> []) by discriminate.
  split; [|split; [|split]].
  - rewrite peval_spec by auto. apply (is_derive_ext (polyval (pint p))); [intros; symmetry; apply peval_spec; auto|]. apply pint_derive.
  - rewrite peval_spec by auto. apply pint_0.
  - rewrite peval_spec by auto. apply pint_at_spec.
  - rewrite pint_at_spec. apply (is_RInt_ext (polyval p)); [intros; symmetry; apply peval_spec; auto|]. apply pint_RInt.
Qed.
Theorem C10_degrees d p : p <> [] -> (d <= degree p)%nat -> degree (pderiv d p) = (degree p - d)%nat /\ degree (pint p) = S (degree p).
Proof.
  intros Hp Hd. pose proof (len_pos p Hp). unfold degree in *. rewrite pderiv_length. unfold pint. simpl. rewrite map_length, seq_length. lia.
Qed.
Example C10_ex : pderiv 2 [1; 1; 1; 1] = [2; 6] /\ (2 <= degree [1; 1; 1; 1]%R)%nat.
Proof. unfold pderiv, coef, degree; cbn -[Rmult Rplus IZR INR]. split; [|lia]. f_equal; [simpl; ring|f_equal; simpl; ring]. Qed.

Print Assumptions C09_ring.
Print Assumptions C10_derivative.
Print Assumptions C10_integral.
