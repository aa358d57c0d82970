(** Coupled problems: direction and change of basis. *)
From Coq Require Import String QArith Qreals Reals ZArith Lra Lia.
From Coquelicot Require Import Coquelicot.
From Coq Require Import List Bool.
From Verif Require Import Base S_Eta P_Eta S_Poly S_Legendre S_Formulas S_Coupled M_Sectors M_TableData M_Core M_Formulas M_CoupledData M_Coupled
  P_Poly P_Terms P_Terms2 P_Formulas P_Formulas2 P_Formulas3 P_Formulas4 P_WTerms P_Accuracy P_Coupled P_Coupled2 P_Coupled3.
Import ListNotations.
Open Scope R_scope.

Lemma leg_mirror : forall k t, (k <= 8)%nat -> legendre_fun k (1 - t) = (if Nat.odd k then -1 else 1) * legendre_fun k t.
Proof.
  intros k t Hk. unfold legendre_fun.
  do 9 (destruct k as [|k]; [match goal with |- context [shifted_leg ?m] => let l := eval vm_compute in (shifted_leg m) in change (shifted_leg m) with l end;
    cbn [map Nat.odd Nat.even negb]; unfold Q2R; cbn [Qnum Qden]; rewrite ?polyval_cons, ?polyval_nil, ?Rinv_1, ?Rmult_1_r; ring|]). lia.
Qed.
Lemma mmult_conj : forall n Q A a b, mmult n (mmult n (mtr Q) A) Q a b = conj n Q A a b.
Proof.
  intros n Q A a b. unfold mmult, conj, mtr.
  rewrite (rsum_ext n _ (fun k => rsum n (fun j => Q j a * A j k * Q k b))).
  - apply (rsum_swap n n (fun k j => Q j a * A j k * Q k b)).
  - intros k Hk. rewrite <- (Rmult_comm (Q k b)), <- rsum_scal. apply rsum_ext. intros. ring.
Qed.
Lemma mmult_unconj : forall n Q A a b, mmult n (mmult n Q A) (mtr Q) a b = unconj n Q A a b.
Proof.
  intros n Q A a b. unfold mmult, unconj, mtr.
  rewrite (rsum_ext n _ (fun k => rsum n (fun j => Q a j * A j k * Q b k))).
  - apply (rsum_swap n n (fun k j => Q a j * A j k * Q b k)).
  - intros k Hk. rewrite <- (Rmult_comm (Q b k)), <- rsum_scal. apply rsum_ext. intros. ring.
Qed.
Definition from_left (d : dir) (h x : R) : R := if dir_eqb d Dbwd then h - x else x.
Theorem cframe : forall n V Q h d x a b, h <> 0 -> (a < n)%nat -> (b < n)%nat ->
  mat_potential 8 (cs_vs (make_csector n V Q h d)) h x a b = conj n Q (mat_potential 8 V h (from_left d h x)) a b.
Proof.
  intros n V Q h d x a b Hh Ha Hb. unfold mat_potential at 1, conj. cbn [cs_vs make_csector].
  rewrite (rsum_ext 9 _ (fun k => rsum n (fun j => rsum n (fun l => Q j a * (V k j l * h ^ k * legendre_fun k (from_left d h x / h)) * Q l b)))).
  - rewrite rsum_swap. apply rsum_ext. intros j Hj. rewrite rsum_swap. apply rsum_ext. intros l Hl. unfold mat_potential.
    rewrite (rsum_ext 9 _ (fun k => (Q j a * Q l b) * (V k j l * h ^ k * legendre_fun k (from_left d h x / h)))) by (intros k Hk; generalize (legendre_fun k (from_left d h x / h)); intro; ring).
    rewrite rsum_scal. generalize (rsum 9 (fun k => V k j l * h ^ k * legendre_fun k (from_left d h x / h))). intro. ring.
  - intros k Hk. unfold mscale. rewrite mmult_conj.
    assert (legendre_fun k (from_left d h x / h) = (if dir_eqb d Dbwd && Nat.odd k then -1 else 1) * legendre_fun k (x / h)) as EL.
    { unfold from_left. destruct (dir_eqb d Dbwd); cbn [andb]; [|generalize (legendre_fun k (x / h)); intro; ring].
      replace ((h - x) / h) with (1 - x / h) by (field; exact Hh). apply leg_mirror. lia. }
    rewrite EL. unfold conj. set (c := if dir_eqb d Dbwd && Nat.odd k then -1 else 1). generalize (legendre_fun k (x / h)). intro y.
    replace (c * rsum n (fun j => rsum n (fun k0 => Q j a * V k j k0 * Q k0 b)) * h ^ k * y) with ((c * h ^ k * y) * rsum n (fun j => rsum n (fun k0 => Q j a * V k j k0 * Q k0 b))) by ring.
    rewrite <- rsum_scal. apply rsum_ext. intros j Hj. rewrite <- rsum_scal. apply rsum_ext. intros l Hl. ring.
Qed.
Lemma conj_ext : forall n Q A B a b, (forall j k, (j < n)%nat -> (k < n)%nat -> A j k = B j k) -> conj n Q A a b = conj n Q B a b.
Proof. intros. unfold conj. apply rsum_ext. intros j Hj. apply rsum_ext. intros k Hk. rewrite H by assumption. reflexivity. Qed.
Lemma unconj_ext : forall n Q A B a b, (forall j k, (j < n)%nat -> (k < n)%nat -> A j k = B j k) -> unconj n Q A a b = unconj n Q B a b.
Proof. intros. unfold unconj. apply rsum_ext. intros j Hj. apply rsum_ext. intros k Hk. rewrite H by assumption. reflexivity. Qed.
Lemma unconj_id : forall n Q k a b, orthogonal n Q -> (a < n)%nat -> (b < n)%nat ->
  unconj n Q (fun r c => if (r =? c)%nat then k else 0) a b = if (a =? b)%nat then k else 0.
Proof.
  intros n Q k a b HQ Ha Hb. unfold unconj.
  rewrite (rsum_ext n _ (fun j => k * (Q a j * Q b j))).
  - rewrite rsum_scal, (proj2 (HQ a b Ha Hb)). destruct (a =? b)%nat; ring.
  - intros j Hj. rewrite (rsum_only n j); [rewrite Nat.eqb_refl; ring|exact Hj|]. intros l Hl Hne. destruct (Nat.eqb_spec j l); [congruence|ring].
Qed.
(** setDirection gives the sector the constructor would have built with that direction *)
Theorem set_direction_rebuild : forall n V Q h old new i a b,
  let s := set_direction (make_csector n V Q h old) old new in let s' := make_csector n V Q h new in
  cs_h s = cs_h s' /\ cs_Q s = cs_Q s' /\ cs_vs s i a b = cs_vs s' i a b.
Proof.
  intros n V Q h old new i a b s s'. unfold s, s', set_direction, make_csector, mscale.
  destruct old, new; cbn [dir_eqb andb orb cs_h cs_Q cs_vs]; (split; [reflexivity|split; [reflexivity|]]); try reflexivity; destruct (Nat.odd i); ring.
Qed.
