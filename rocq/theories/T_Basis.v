(** C91: coupled problems do not depend on the choice of eigenvectors, nor on the basis of the channels.  Inside a sector the potential
    matrix is diagonalised; which eigenvectors the solver returns (signs, order, any basis of a repeated eigenvalue) makes no difference
    to the step matrices.  A problem written in another orthonormal basis of the channels (for instance: renumbered channels) has the
    same step matrices, written in that basis. *)
From Coq Require Import String Reals ZArith Lra Lia Morphisms Setoid.
From Coquelicot Require Import Coquelicot.
From Coq Require Import List Bool.
From Verif Require Import Base S_Formulas S_Coupled M_Sectors M_Core M_Formulas M_CoupledData M_Coupled P_Terms P_Terms2 P_Formulas P_Formulas2 P_Formulas4 P_Coupled P_Coupled2 P_Coupled4 T_Coupled.
Import ListNotations.
Open Scope R_scope.

(** ** n x n matrices *)
Section Matrices.
Variable n : nat.
Definition eqm (A B : mat) : Prop := forall r c, (r < n)%nat -> (c < n)%nat -> A r c = B r c.
Notation "A ** B" := (mmult n A B) (at level 40, left associativity).
Instance eqm_equiv : Equivalence eqm.
Proof. split; [intros A r c _ _; reflexivity|intros A B H r c Hr Hc; symmetry; apply H; assumption|intros A B C H G r c Hr Hc; rewrite H, G by assumption; reflexivity]. Qed.
Instance mm_proper : Proper (eqm ==> eqm ==> eqm) (mmult n).
Proof. intros A A' HA B B' HB r c Hr Hc. unfold mmult. apply rsum_ext. intros k Hk. rewrite HA, HB by assumption. reflexivity. Qed.
Instance madd_proper : Proper (eqm ==> eqm ==> eqm) madd.
Proof. intros A A' HA B B' HB r c Hr Hc. unfold madd. rewrite HA, HB by assumption. reflexivity. Qed.
Instance mscale_proper k : Proper (eqm ==> eqm) (mscale k).
Proof. intros A A' HA r c Hr Hc. unfold mscale. rewrite HA by assumption. reflexivity. Qed.
Instance mtr_proper : Proper (eqm ==> eqm) mtr.
Proof. intros A A' HA r c Hr Hc. unfold mtr. rewrite HA by assumption. reflexivity. Qed.
Lemma rsum_scal_r : forall m f x, rsum m f * x = rsum m (fun k => f k * x).
Proof. induction m; intros; cbn [rsum]; [ring|]. rewrite <- IHm. ring. Qed.
Lemma rsum_scal_l : forall m f x, x * rsum m f = rsum m (fun k => x * f k).
Proof. induction m; intros; cbn [rsum]; [ring|]. rewrite <- IHm. ring. Qed.
Lemma mm_assoc A B C : eqm (A ** B ** C) (A ** (B ** C)).
Proof.
  intros r c Hr Hc. unfold mmult. rewrite (rsum_ext n _ (fun k => rsum n (fun j => A r j * B j k * C k c))) by (intros; apply rsum_scal_r).
  rewrite rsum_swap. apply rsum_ext. intros j Hj. rewrite rsum_scal_l. apply rsum_ext. intros; ring.
Qed.
Lemma mm_diag_l d A r c : (r < n)%nat -> (mdiag d ** A) r c = d r * A r c.
Proof.
  intros Hr. unfold mmult, mdiag. rewrite (rsum_only n r) by (auto; intros j Hj Hne; rewrite (proj2 (Nat.eqb_neq r j)) by auto; ring).
  rewrite Nat.eqb_refl. reflexivity.
Qed.
Lemma mm_id_l A : eqm (mid ** A) A.
Proof. intros r c Hr Hc. change mid with (mdiag (fun _ => 1)). rewrite mm_diag_l by assumption. ring. Qed.
Lemma mm_id_r A : eqm (A ** mid) A.
Proof. intros r c Hr Hc. change mid with (mdiag (fun _ => 1)). rewrite mmult_diag by assumption. ring. Qed.
Lemma mm_add_l A B C : eqm (madd A B ** C) (madd (A ** C) (B ** C)).
Proof. intros r c Hr Hc. unfold mmult, madd. rewrite <- rsum_plus. apply rsum_ext. intros; ring. Qed.
Lemma mm_add_r A B C : eqm (C ** madd A B) (madd (C ** A) (C ** B)).
Proof. intros r c Hr Hc. unfold mmult, madd. rewrite <- rsum_plus. apply rsum_ext. intros; ring. Qed.
Lemma mm_scale_l k A C : eqm (mscale k A ** C) (mscale k (A ** C)).
Proof. intros r c Hr Hc. unfold mmult, mscale. rewrite rsum_scal_l. apply rsum_ext. intros; ring. Qed.
Lemma mm_scale_r k A C : eqm (C ** mscale k A) (mscale k (C ** A)).
Proof. intros r c Hr Hc. unfold mmult, mscale. rewrite rsum_scal_l. apply rsum_ext. intros; ring. Qed.
Lemma mm_zero_l C : eqm (mzero ** C) mzero.
Proof. intros r c Hr Hc. unfold mmult, mzero. rewrite (rsum_ext n _ (fun _ => 0)) by (intros; ring). apply rsum_zero. Qed.
Lemma mm_zero_r C : eqm (C ** mzero) mzero.
Proof. intros r c Hr Hc. unfold mmult, mzero. rewrite (rsum_ext n _ (fun _ => 0)) by (intros; ring). apply rsum_zero. Qed.
Lemma mtr_mm A B : eqm (mtr (A ** B)) (mtr B ** mtr A).
Proof. intros r c Hr Hc. unfold mtr, mmult. apply rsum_ext. intros; ring. Qed.

(** Q A Q^T *)
Definition lift (Q A : mat) : mat := Q ** A ** mtr Q.
Instance lift_proper : Proper (eqm ==> eqm ==> eqm) lift.
Proof. intros Q Q' HQ A A' HA. unfold lift. rewrite HQ, HA. reflexivity. Qed.
Definition ortho (Q : mat) : Prop := eqm (mtr Q ** Q) mid /\ eqm (Q ** mtr Q) mid.
Lemma ortho_of Q : orthogonal n Q -> ortho Q.
Proof. intro H. split; intros a b Ha Hb; unfold mmult, mtr, mid; apply (H a b Ha Hb). Qed.

Section Two.
Variables Q Q' : mat.
Hypothesis O : ortho Q.
Hypothesis O' : ortho Q'.
(** two matrices that are the same one in the user's basis *)
Definition same (A A' : mat) : Prop := eqm (lift Q A) (lift Q' A').
Lemma lift_id P : ortho P -> eqm (lift P mid) mid.
Proof. intros [_ H]. unfold lift. rewrite mm_id_r. exact H. Qed.
Lemma lift_mm P A B : ortho P -> eqm (lift P (A ** B)) (lift P A ** lift P B).
Proof. intros [H _]. unfold lift. rewrite !mm_assoc. rewrite <- (mm_assoc (mtr P) P). rewrite H, mm_id_l. reflexivity. Qed.
Lemma lift_add P A B : eqm (lift P (madd A B)) (madd (lift P A) (lift P B)).
Proof. unfold lift. rewrite mm_add_r, mm_add_l. reflexivity. Qed.
Lemma lift_scale P k A : eqm (lift P (mscale k A)) (mscale k (lift P A)).
Proof. unfold lift. rewrite mm_scale_r, mm_scale_l. reflexivity. Qed.
Lemma lift_zero P : eqm (lift P mzero) mzero.
Proof. unfold lift. rewrite mm_zero_r, mm_zero_l. reflexivity. Qed.
Lemma same_id : same mid mid.
Proof using O O'. unfold same. rewrite !lift_id by assumption. reflexivity. Qed.
Lemma same_mm A A' B B' : same A A' -> same B B' -> same (A ** B) (A' ** B').
Proof using O O'. unfold same. intros H G. rewrite !lift_mm, H, G by assumption. reflexivity. Qed.
Lemma same_add A A' B B' : same A A' -> same B B' -> same (madd A B) (madd A' B').
Proof using Type. unfold same. intros H G. rewrite !lift_add, H, G. reflexivity. Qed.
Lemma same_scale k A A' : same A A' -> same (mscale k A) (mscale k A').
Proof using Type. unfold same. intros H. rewrite !lift_scale, H. reflexivity. Qed.
Lemma same_zero : same mzero mzero.
Proof using Type. unfold same. rewrite !lift_zero. reflexivity. Qed.

(** functions of the diagonal *)
Variables D D' : mat.
Hypothesis HD : diagonal n D.
Hypothesis HD' : diagonal n D'.
Hypothesis SD : same D D'.
Lemma diag_self A : diagonal n A -> eqm A (mdiag (fun c => A c c)).
Proof using Type. intros H r c Hr Hc. unfold mdiag. destruct (Nat.eqb_spec r c) as [->|Hne]; [reflexivity|apply H; assumption]. Qed.
Lemma same_diag (g : R -> R) : same (mdiag (fun c => g (D c c))) (mdiag (fun c => g (D' c c))).
Proof using O O' HD HD' SD.
  destruct O as [O1 O2]. destruct O' as [O1' O2']. set (U := mtr Q ** Q').  pose proof SD as SD0. change (eqm (lift Q D) (lift Q' D')) in SD0.
  assert (eqm (D ** U) (U ** D')) as C.
  { unfold U. assert (eqm (D ** (mtr Q ** Q')) (mtr Q ** lift Q D ** Q')) as ->.
    { unfold lift. rewrite !mm_assoc. rewrite <- (mm_assoc (mtr Q) Q). rewrite O1, mm_id_l. reflexivity. }
    rewrite SD0. unfold lift. rewrite !mm_assoc. rewrite O1', mm_id_r. reflexivity. }
  assert (eqm (mdiag (fun c => g (D c c)) ** U) (U ** mdiag (fun c => g (D' c c)))) as G.
  { intros r c Hr Hc. rewrite mm_diag_l, mmult_diag by assumption. specialize (C r c Hr Hc).
    rewrite (mm_proper _ _ (diag_self D HD) U U (fun r c _ _ => eq_refl) r c Hr Hc) in C. rewrite (mm_proper U U (fun r c _ _ => eq_refl) _ _ (diag_self D' HD') r c Hr Hc) in C.
    rewrite mm_diag_l, mmult_diag in C by assumption. destruct (Req_dec (U r c) 0) as [Z|Z]; [rewrite Z; ring|].
    assert (D r r = D' c c) as ->; [|ring]. apply (Rmult_eq_reg_r (U r c)); [rewrite C; ring|exact Z]. }
  unfold same, lift.
  assert (eqm (mtr Q) (mtr Q ** Q' ** mtr Q')) as E1 by (rewrite mm_assoc, O2', mm_id_r; reflexivity).
  rewrite E1. fold U. rewrite (mm_assoc Q). rewrite <- (mm_assoc _ U (mtr Q')). rewrite G. unfold U. rewrite !mm_assoc. rewrite <- (mm_assoc Q (mtr Q)). rewrite O2, mm_id_l. reflexivity.
Qed.

(** the tables *)
Variables vs vs' : nat -> mat.
Hypothesis SV : forall i, same (vs i) (vs' i).
Lemma same_wprod w : same (wprod n vs w) (wprod n vs' w).
Proof using O O' SV. induction w as [|k w IH]; [apply same_id|]. cbn [wprod fold_right]. apply same_mm; [apply SV|exact IH]. Qed.
Lemma same_row e : same (wrow_val n vs e) (wrow_val n vs' e).
Proof using O O' SV.
  induction e as [|[m k w] e IH]; [apply same_zero|]. cbn [wrow_val fold_right]. apply same_add; [|exact IH]. unfold wterm_val. apply same_scale, same_wprod.
Qed.
Lemma same_entry h e : same (wentry_val n vs h e) (wentry_val n vs' h e).
Proof using O O' SV.
  induction e as [|r e IH]; [apply same_zero|]. cbn [wentry_val fold_right]. apply same_add; [|exact IH]. apply same_scale, same_row.
Qed.
Lemma same_horner f f' x m : (forall i, same (f i) (f' i)) -> same (mhorner f x m) (mhorner f' x m).
Proof using Type.
  intro H. unfold mhorner. assert (forall i A A', same A A' -> same (mhorner_loop f x i A) (mhorner_loop f' x i A')) as L.
  { induction i as [|i IH]; intros A A' S; [exact S|]. cbn [mhorner_loop]. apply IH. apply same_add; [apply same_scale, S|apply H]. }
  apply L, H.
Qed.
Lemma same_macc m b b' (c c' : nat -> mat) (d d' : nat -> nat -> R) : same b b' -> (forall i, same (c i) (c' i)) -> (forall i, same (mdiag (d i)) (mdiag (d' i))) ->
  same (macc n m b c d) (macc n m b' c' d').
Proof using O O'.
  intros Hb Hc Hd. unfold macc. revert b b' Hb. induction (seq 0 m) as [|i l IH]; intros b b' Hb; [exact Hb|]. cbn [fold_left]. apply IH. apply same_add; [exact Hb|]. apply same_mm; auto.
Qed.
Definition same_T (t t' : CTm) : Prop := forall q, same (cb t q) (cb t' q) /\ same (cdb t q) (cdb t' q).
Lemma same_blocks etaf m (co co' : nat -> nat -> mat) x E : (forall q i, same (co q i) (co' q i)) ->
  same_T (blocksVEd etaf n m co x (fun c => (D c c - E) * x)) (blocksVEd etaf n m co' x (fun c => (D' c c - E) * x)).
Proof using O O' HD HD' SD.
  intros Hc q. unfold blocksVEd. cbn [cb cdb].
  pose (e := fun (i : nat) (v : R) => nth i (etaf m ((v - E) * x * x)) 0).
  split; apply same_macc; auto.
  - destruct (q =? 2)%nat; [|apply same_zero]. apply (same_diag (fun v => e 1%nat v * ((v - E) * x))).
  - intro i. apply (same_diag (e i)).
  - destruct (q =? 2)%nat; [|apply same_zero]. apply (same_diag (fun v => - x * e 1%nat v - x * x / 2 * e 2%nat v * ((v - E) * x))).
  - intro i. apply (same_diag (fun v => e (i + 1)%nat v * (- x * x / 2))).
Qed.
End Two.

Lemma same_calculate Q Q' vs vs' h etaf E x u : ortho Q -> ortho Q' -> (forall i, same Q Q' (vs i) (vs' i)) -> diagonal n (vs 0%nat) -> diagonal n (vs' 0%nat) ->
  forall q, eqm (cb (rebase n Q (cblocks_delta etaf n (mkCS h vs Q) E x)) q) (cb (rebase n Q' (cblocks_delta etaf n (mkCS h vs' Q') E x)) q) /\
    eqm (cdb (rebase n Q (cblocks_delta etaf n (mkCS h vs Q) E x)) q) (cdb (rebase n Q' (cblocks_delta etaf n (mkCS h vs' Q') E x)) q) /\
    eqm (cb (rebase n Q (cblocks_full etaf n (mkCS h vs Q) E)) q) (cb (rebase n Q' (cblocks_full etaf n (mkCS h vs' Q') E)) q) /\
    eqm (cdb (rebase n Q (cblocks_full etaf n (mkCS h vs Q) E)) q) (cdb (rebase n Q' (cblocks_full etaf n (mkCS h vs' Q') E)) q) /\
    eqm (cb (ccalculateT etaf n (mkCS h vs Q) E x u) q) (cb (ccalculateT etaf n (mkCS h vs' Q') E x u) q) /\
    eqm (cdb (ccalculateT etaf n (mkCS h vs Q) E x u) q) (cdb (ccalculateT etaf n (mkCS h vs' Q') E x u) q).
Proof.
  intros O O' SV HD HD' q.
  assert (same_T Q Q' (cblocks_delta etaf n (mkCS h vs Q) E x) (cblocks_delta etaf n (mkCS h vs' Q') E x)) as A.
  { unfold cblocks_delta, VEd_of. cbn [cs_vs cs_h]. apply same_blocks; auto. intros q0 i. apply same_horner; auto. intro j. apply same_entry; auto. }
  assert (same_T Q Q' (cblocks_full etaf n (mkCS h vs Q) E) (cblocks_full etaf n (mkCS h vs' Q') E)) as B.
  { unfold cblocks_full, VEd_of. cbn [cs_vs cs_h]. apply same_blocks; auto. intros q0 i. apply same_entry; auto. }
  destruct (A q) as [A1 A2]. destruct (B q) as [B1 B2].
  do 4 (split; [assumption|]). unfold ccalculateT, cstep_full, cstep_delta. cbn [cs_h cs_Q].
  destruct (Rleb (Rabs x) EPS12); [split; reflexivity|]. destruct (u && Rleb (Rabs (x - h)) EPS12); split; assumption.
Qed.
End Matrices.

(** ** Theorems *)
(** V': the potential matrices V_0, V_1, ... of a sector in another basis of the channels: B V_i B^T *)
Definition in_basis (n : nat) (B : mat) (V V' : nat -> mat) : Prop := forall i r c, (r < n)%nat -> (c < n)%nat -> V' i r c = unconj n B (V i) r c.
(** Eigenvectors of the mean potential: an orthogonal matrix that makes V_0 diagonal. *)
Definition eigenvectors (n : nat) (V : nat -> mat) (Q : mat) : Prop := orthogonal n Q /\ diagonal n (conj n Q (V 0%nat)).

Lemma lift_unconj n Q A : eqm n (lift n Q A) (unconj n Q A).
Proof. intros r c _ _. apply mmult_unconj. Qed.
Lemma made n V Q h d i : eqm n (lift n Q (cs_vs (make_csector n V Q h d) i)) (mscale (if dir_eqb d Dbwd && Nat.odd i then -1 else 1) (mmult n (mmult n Q (mtr Q)) (mmult n (V i) (mmult n Q (mtr Q))))).
Proof.
  pose proof (eqm_equiv n) as Eq. pose proof (mm_proper n) as Pm. pose proof (mscale_proper n) as Ps.
  unfold make_csector. cbn [cs_vs]. rewrite lift_scale. unfold lift. rewrite !mm_assoc. reflexivity.
Qed.
Lemma made_ok n V Q h d i : ortho n Q -> eqm n (lift n Q (cs_vs (make_csector n V Q h d) i)) (mscale (if dir_eqb d Dbwd && Nat.odd i then -1 else 1) (V i)).
Proof.
  pose proof (eqm_equiv n) as Eq. pose proof (mm_proper n) as Pm. pose proof (mscale_proper n) as Ps.
  intros [_ O]. rewrite made. rewrite O. rewrite mm_id_r, mm_id_l. reflexivity.
Qed.
Lemma made_diag n V Q h d : eigenvectors n V Q -> diagonal n (cs_vs (make_csector n V Q h d) 0%nat).
Proof.
  intros [_ H] a b Ha Hb Hne. unfold make_csector. cbn [cs_vs]. unfold mscale. rewrite mmult_conj. rewrite (H a b Ha Hb Hne). ring.
Qed.

(** a problem written in another orthonormal basis B of the channels: whatever eigenvectors the solver returns for either of them, every
    step matrix (partial and full, all four blocks, and its energy derivative) is the other one written in that basis *)
Theorem C91_basis : forall etaf n V V' B Q Q' h d E x u q r c, orthogonal n B -> in_basis n B V V' -> eigenvectors n V Q -> eigenvectors n V' Q' -> (r < n)%nat -> (c < n)%nat ->
  let s := make_csector n V Q h d in let s' := make_csector n V' Q' h d in
  let T := ccalculateT etaf n s E x u in let T' := ccalculateT etaf n s' E x u in
  cb T' q r c = unconj n B (cb T q) r c /\ cdb T' q r c = unconj n B (cdb T q) r c.
Proof.
  intros etaf n V V' B Q Q' h d E x u q r c OB HB H H' Hr Hc s s' T T'.
  pose proof (eqm_equiv n) as Eq. pose proof (mm_proper n) as Pm. pose proof (mscale_proper n) as Ps. pose proof (mtr_proper n) as Pt.
  assert (ortho n B) as OB' by (apply ortho_of, OB). assert (ortho n Q) as OQ by (apply ortho_of, H). assert (ortho n Q') as OQ' by (apply ortho_of, H').
  assert (forall A, eqm n (lift n (mmult n B Q) A) (lift n B (lift n Q A))) as LL by (intro A; unfold lift; rewrite mtr_mm, !mm_assoc; reflexivity).
  assert (ortho n (mmult n B Q)) as O1.
  { destruct OB' as [B1 B2], OQ as [Q1 Q2]. split; rewrite mtr_mm, !mm_assoc.
    - rewrite <- (mm_assoc n (mtr B) B). rewrite B1, mm_id_l. exact Q1.
    - rewrite <- (mm_assoc n Q (mtr Q)). rewrite Q2, mm_id_l. exact B2. }
  pose proof (lift_proper n) as Pl.
  assert (forall i, same n (mmult n B Q) Q' (cs_vs s i) (cs_vs s' i)) as SV.
  { intro i. unfold same. rewrite LL. unfold s, s'. rewrite !made_ok by assumption. rewrite lift_scale, lift_unconj.
    intros a b Ha Hb. unfold mscale. rewrite (HB i a b Ha Hb). reflexivity. }
  destruct (same_calculate n (mmult n B Q) Q' (cs_vs s) (cs_vs s') h etaf E x u O1 OQ' SV (made_diag n V Q h d H) (made_diag n _ Q' h d H') q) as (A1 & A2 & A3 & A4 & _).
  assert (eqm n (cb T' q) (lift n B (cb T q)) /\ eqm n (cdb T' q) (lift n B (cdb T q))) as [R1 R2].
  { unfold T, T', ccalculateT. change (cs_h s) with h. change (cs_h s') with h.
    destruct (Rleb (Rabs x) EPS12).
    { split; [|cbn [cdb CTid]; rewrite lift_zero; reflexivity]. cbn [cb CTid]. destruct q as [|[|[|[|q]]]]; rewrite ?lift_id, ?lift_zero by assumption; reflexivity. }
    unfold cstep_full, cstep_delta. destruct (u && Rleb (Rabs (x - h)) EPS12); change (cs_Q s) with Q; change (cs_Q s') with Q'.
    - split; (etransitivity; [symmetry; first [exact A3|exact A4]|apply LL]).
    - split; (etransitivity; [symmetry; first [exact A1|exact A2]|apply LL]). }
  rewrite (R1 r c Hr Hc), (R2 r c Hr Hc). split; apply mmult_unconj.
Qed.
(** in particular the step matrices do not depend on which eigenvectors the solver returns *)
Theorem C91_eigenvectors : forall etaf n V Q Q' h d E x u q r c, eigenvectors n V Q -> eigenvectors n V Q' -> (r < n)%nat -> (c < n)%nat ->
  let T := ccalculateT etaf n (make_csector n V Q h d) E x u in let T' := ccalculateT etaf n (make_csector n V Q' h d) E x u in
  cb T' q r c = cb T q r c /\ cdb T' q r c = cdb T q r c.
Proof.
  intros etaf n V Q Q' h d E x u q r c H H' Hr Hc T T'.
  destruct (same_calculate n Q Q' (cs_vs (make_csector n V Q h d)) (cs_vs (make_csector n V Q' h d)) h etaf E x u (ortho_of n Q (proj1 H)) (ortho_of n Q' (proj1 H'))) with (q := q) as (_ & _ & _ & _ & A1 & A2).
  - intro i. intros a b Ha Hb. rewrite (made_ok n V Q h d i (ortho_of n Q (proj1 H)) a b Ha Hb), (made_ok n V Q' h d i (ortho_of n Q' (proj1 H')) a b Ha Hb). reflexivity.
  - apply made_diag, H.
  - apply made_diag, H'.
  - split; symmetry; [apply A1|apply A2]; assumption.
Qed.

(** renumbering the channels: channel r of the new problem is channel p r of the old one *)
Theorem C91_renumbered : forall etaf n (p p' : nat -> nat) V V' Q Q' h d E x u q r c,
  (forall k, (k < n)%nat -> (p k < n)%nat /\ p' (p k) = k) -> (forall k, (k < n)%nat -> (p' k < n)%nat /\ p (p' k) = k) ->
  (forall i a b, (a < n)%nat -> (b < n)%nat -> V' i a b = V i (p a) (p b)) -> eigenvectors n V Q -> eigenvectors n V' Q' -> (r < n)%nat -> (c < n)%nat ->
  let T := ccalculateT etaf n (make_csector n V Q h d) E x u in let T' := ccalculateT etaf n (make_csector n V' Q' h d) E x u in
  cb T' q r c = cb T q (p r) (p c) /\ cdb T' q r c = cdb T q (p r) (p c).
Proof.
  intros etaf n p p' V V' Q Q' h d E x u q r c Hp Hp' HV H H' Hr Hc T T'.
  set (B := fun r k : nat => if (k =? p r)%nat then 1 else 0 : R).
  assert (forall A a b, (a < n)%nat -> (b < n)%nat -> unconj n B A a b = A (p a) (p b)) as U.
  { intros A a b Ha Hb. unfold unconj, B. destruct (Hp a Ha) as [Pa _]. destruct (Hp b Hb) as [Pb _].
    rewrite (rsum_only n (p a)); [|exact Pa|].
    - rewrite (rsum_only n (p b)); [rewrite !Nat.eqb_refl; ring|exact Pb|]. intros j Hj Hne. rewrite (proj2 (Nat.eqb_neq j (p b)) Hne). ring.
    - intros j Hj Hne. rewrite (rsum_ext n _ (fun _ => 0)); [apply rsum_zero|]. intros. rewrite (proj2 (Nat.eqb_neq j (p a)) Hne). ring. }
  assert (orthogonal n B) as OB.
  { intros a b Ha Hb. unfold B. destruct (Hp' a Ha) as [Pa Qa]. destruct (Hp a Ha) as [Pa1 Qa1]. split.
    - rewrite (rsum_only n (p' a)); [rewrite Qa, Nat.eqb_refl|exact Pa|].
      + destruct (Nat.eqb_spec b a) as [->|Hne]; [rewrite Nat.eqb_refl; ring|]. rewrite (proj2 (Nat.eqb_neq a b)) by auto. ring.
      + intros j Hj Hne. destruct (Nat.eqb_spec a (p j)) as [e|]; [exfalso; apply Hne; rewrite e; symmetry; apply (Hp j Hj)|ring].
    - rewrite (rsum_only n (p a)); [rewrite Nat.eqb_refl|exact Pa1|].
      + destruct (Nat.eqb_spec a b) as [->|Hne]; [rewrite Nat.eqb_refl; ring|]. destruct (Nat.eqb_spec (p a) (p b)) as [e|]; [exfalso; apply Hne; rewrite <- Qa1, e; apply (Hp b Hb)|ring].
      + intros j Hj Hne. rewrite (proj2 (Nat.eqb_neq j (p a)) Hne). ring. }
  assert (in_basis n B V V') as IB by (intros i a b Ha Hb; rewrite U by assumption; apply HV; assumption).
  destruct (C91_basis etaf n V V' B Q Q' h d E x u q r c OB IB H H' Hr Hc) as [R1 R2]. cbv zeta in R1, R2. unfold T, T'.
  rewrite R1, R2, !U by assumption. split; reflexivity.
Qed.

(** ** Cases: two channels; the identity and a reflection with exchanged columns are both eigenvectors of a mean potential that is
    a multiple of the identity *)
Definition ex_V : nat -> mat := fun i r c => match i with 0%nat => if (r =? c)%nat then 2 else 0 | 1%nat => INR (r + c) | _ => 0 end.
Definition ex_Q : mat := fun r c => match r, c with 0%nat, 0%nat => 3 / 5 | 0%nat, _ => 4 / 5 | _, 0%nat => 4 / 5 | _, _ => - (3 / 5) end.
Example C91_case : eigenvectors 2 ex_V mid /\ eigenvectors 2 ex_V ex_Q /\ ex_V 1%nat 0%nat 1%nat <> 0 /\
  cs_vs (make_csector 2 ex_V ex_Q (1 / 2) Dfwd) 1%nat 0%nat 0%nat <> cs_vs (make_csector 2 ex_V mid (1 / 2) Dfwd) 1%nat 0%nat 0%nat.
Proof.
  assert (forall a, (a < 2)%nat -> a = 0%nat \/ a = 1%nat) as L by lia.
  split; [split; [intros a b Ha Hb|intros a b Ha Hb Hne]|split; [split; [intros a b Ha Hb|intros a b Ha Hb Hne]|split]].
  - destruct (L a Ha) as [-> | ->], (L b Hb) as [-> | ->]; cbn [rsum mid Nat.eqb]; split; ring.
  - destruct (L a Ha) as [-> | ->], (L b Hb) as [-> | ->]; try lia; unfold conj, ex_V, mid; cbn [rsum Nat.eqb]; ring.
  - destruct (L a Ha) as [-> | ->], (L b Hb) as [-> | ->]; cbn [rsum ex_Q Nat.eqb]; split; field.
  - destruct (L a Ha) as [-> | ->], (L b Hb) as [-> | ->]; try lia; unfold conj, ex_V, ex_Q; cbn [rsum Nat.eqb]; field.
  - unfold ex_V. cbn. lra.
  - unfold make_csector. cbn [cs_vs Nat.odd Nat.even negb dir_eqb andb]. unfold mscale, mmult, mtr, ex_V, ex_Q, mid. cbn [rsum Nat.eqb Nat.add INR]. lra.
Qed.
(** exchanging the two channels is a renumbering *)
Example C91_exchange : let p := fun k => (1 - k)%nat in (forall k, (k < 2)%nat -> (p k < 2)%nat /\ p (p k) = k).
Proof. cbv beta zeta. intros k Hk. lia. Qed.

Print Assumptions C91_basis.
Print Assumptions C91_eigenvectors.
Print Assumptions C91_renumbered.
Print Assumptions C91_case.
