(** The partial-step propagator and the Schroedinger equation. *)
From Coq Require Import String Reals ZArith Lra Lia.
From Coquelicot Require Import Coquelicot.
From Coq Require Import List Bool.
From Verif Require Import Base S_Eta P_Eta S_Poly S_Legendre S_Formulas M_Sectors M_TableData M_Core M_Formulas P_Terms P_Terms2 P_Formulas P_Formulas2.
Import ListNotations.
Open Scope R_scope.

Lemma DD_nz : IZR DD <> 0.
Proof. apply not_0_IZR. discriminate. Qed.

Lemma acc_eta_val : forall n base c e, acc_eta n base c e = base + rsum n (fun i => c i * e i).
Proof.
  intros. unfold acc_eta. revert base.
  assert (forall s n base, fold_left (fun acc i => acc + c i * e i) (seq s n) base = base + rsum n (fun i => c (s + i)%nat * e (s + i)%nat)) as H.
  { intros s m. revert s. induction m; intros s base; cbn [seq fold_left]; [simpl; ring|].
    rewrite IHm, rsum_S, Nat.add_0_r. rewrite Rplus_assoc. f_equal. f_equal. apply rsum_ext. intros. do 2 f_equal; lia. }
  intro base. apply H.
Qed.
Lemma eta_exact_nth : forall n z i, (i < n)%nat -> nth i (eta_exact n z) 0 = eta i z.
Proof.
  intros n z i Hi. unfold eta_exact. rewrite (nth_indep _ 0 (eta 0 z)) by (rewrite map_length, seq_length; exact Hi).
  rewrite (map_nth (fun i => eta i z)), seq_nth by exact Hi. reflexivity.
Qed.

Lemma step_delta_val : forall v h E x q, (q < 4)%nat ->
  tent q (step_delta eta_exact v h E x)
  = (if (q =? 2)%nat then (v 0%nat - E) * x * eta 1 ((v 0%nat - E) * (x * x)) else 0)
    + / IZR DD * ysum v h (v 0%nat - E) 0 (acol q) x.
Proof.
  intros v h E x q Hq. rewrite ysum_hsum, hsum_rsum, acol_length.
  assert (forall q base, (q < 4)%nat -> acc_eta ETA_delta base (fun i => horner (tcoeff v h q i) x HMAX_delta)
     (fun i => nth i (eta_exact ETA_delta ((v 0%nat - E) * (x * x))) 0)
     = base + / IZR DD * rsum 9 (fun k => leval v h x (nth k (acol q) []) * eta (0 + k) ((v 0%nat - E) * (x * x)))) as H.
  { intros q0 base _. rewrite acc_eta_val. unfold ETA_delta. f_equal. rewrite <- rsum_scal. apply rsum_ext. intros i Hi.
    rewrite eta_exact_nth, acol_val by exact Hi. cbn [Nat.add]. field. apply DD_nz. }
  unfold step_delta. destruct q as [|[|[|[|q]]]]; [| | | |lia]; cbn [tent t00 t01 t10 t11 Nat.eqb]; rewrite H by lia.
  - reflexivity.
  - reflexivity.
  - rewrite eta_exact_nth by (unfold ETA_delta; lia). reflexivity.
  - reflexivity.
Qed.

Lemma acol_destruct : forall q, exists a l, acol q = a :: l /\ hd [] (acol q) = a.
Proof. intro q. pose proof (acol_length q) as H. destruct (acol q) as [|a l]; [discriminate|]. exists a, l. auto. Qed.

(** list-indexed leftovers as polynomials *)
Definition polys (l : list (list term)) (i : nat) : list monomial := map to_mono (nth i l []).
Lemma polys_order : forall n l, (forall r t, In r l -> In t r -> (n <= tdeg t)%nat) ->
  forall i m, In m (polys l i) -> (n <= order m)%nat.
Proof.
  intros n l H i m Hm. unfold polys in Hm. apply in_map_iff in Hm. destruct Hm as (t & <- & Ht). rewrite to_mono_order.
  destruct (Nat.lt_ge_cases i (List.length l)) as [Hi|Hi].
  - eapply H; [apply nth_In, Hi|exact Ht].
  - rewrite nth_overflow in Ht by exact Hi. destruct Ht.
Qed.
Lemma hsum_polys : forall v h w l x, List.length l = 9%nat ->
  / IZR DD * hsum v h w 0 l x = rsum 9 (fun i => poly_val v h x (polys l i) * eta i (w * (x * x))).
Proof.
  intros v h w l x Hl. rewrite hsum_rsum, Hl, <- rsum_scal. apply rsum_ext. intros i Hi.
  unfold polys. rewrite <- to_mono_val. cbn [Nat.add]. field. apply DD_nz.
Qed.

(** the residual of column c (0: first column, 1: second) *)
Definition resid_polys (c : nat) : nat -> list monomial := polys (resid_highs 15 legD (seq 1 13) 0 [] (acol c)).
Lemma resid_polys_order : forall c i m, In m (resid_polys c i) -> (15 <= order m)%nat.
Proof. intros c. unfold resid_polys. apply polys_order. intros r t. apply resid_highs_deg. intros k u Hk. apply legD_deg. apply in_seq in Hk. lia. Qed.

Lemma resid_check : forall c, (c < 2)%nat -> resid_ok 15 legD (seq 1 13) 0 [] (acol c) = true.
Proof. intros [|[|c]] H; [apply resid_check0|apply resid_check1|lia]. Qed.
Lemma Bs_first : forall c, (c < 2)%nat -> Bs 0 (hd [] (acol c)) = [].
Proof. intros [|[|c]] H; [|  |lia]; destruct first_coeff as [E0 E1]; [rewrite E0|rewrite E1]; reflexivity. Qed.

Theorem column_residual : forall c, (c < 2)%nat -> forall v h E, h <> 0 ->
  exists y1 y2 : R -> R, forall x,
    is_derive (fun x => tent c (step_delta eta_exact v h E x)) x (y1 x) /\
    is_derive y1 x (y2 x) /\
    y2 x = (sector_potential 13 v h x - E) * tent c (step_delta eta_exact v h E x)
           + rsum 9 (fun i => poly_val v h x (resid_polys c i) * eta i ((v 0%nat - E) * (x * x))).
Proof.
  intros c Hc v h E Hh. set (w := v 0%nat - E).
  exists (fun x => / IZR DD * y1sum v h w 0 (acol c) x), (fun x => / IZR DD * y2sum v h w 0 (acol c) x).
  intro x.
  assert (forall x, tent c (step_delta eta_exact v h E x) = / IZR DD * ysum v h w 0 (acol c) x) as Ht.
  { intro z. rewrite step_delta_val by lia. destruct (Nat.eqb_spec c 2); [lia|]. fold w. ring. }
  split; [|split].
  - apply (is_derive_ext (fun x => / IZR DD * ysum v h w 0 (acol c) x)); [intro; symmetry; apply Ht|].
    apply (is_derive_scal (ysum v h w 0 (acol c))). apply ysum_derive.
  - apply (is_derive_scal (y1sum v h w 0 (acol c))). apply y1sum_derive.
  - rewrite Ht. unfold resid_polys. rewrite <- hsum_polys by (rewrite resid_highs_length; apply acol_length).
    rewrite <- Dsum_potential by (try exact Hh; lia).
    replace (v 0%nat + Dsum v h legD (seq 1 13) x - E) with (w + Dsum v h legD (seq 1 13) x) by (unfold w; ring).
    pose proof (resid_val v h w 15 legD (seq 1 13) (acol c) 0 [] x (resid_check c Hc)) as Hr.
    assert (y2sum v h w 0 (acol c) x - (w + Dsum v h legD (seq 1 13) x) * ysum v h w 0 (acol c) x
            = 0 + hsum v h w 0 (resid_highs 15 legD (seq 1 13) 0 [] (acol c)) x) as Hv.
    { apply Hr; [|reflexivity]. pose proof (Bs_first c Hc) as HB. pose proof (acol_length c) as HL. clear Hr Ht.
      destruct (acol c) as [|a0 l0]; [discriminate|]. cbn [hd] in HB. rewrite HB. reflexivity. }
    replace (y2sum v h w 0 (acol c) x) with ((w + Dsum v h legD (seq 1 13) x) * ysum v h w 0 (acol c) x
            + hsum v h w 0 (resid_highs 15 legD (seq 1 13) 0 [] (acol c)) x) by lra.
    ring.
Qed.
