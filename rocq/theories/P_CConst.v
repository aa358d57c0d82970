(** Coupled problems with a constant potential matrix: the step matrix of the code in the original basis. *)
From Coq Require Import String Reals ZArith Lra Lia.
From Coquelicot Require Import Coquelicot.
From Coq Require Import List Bool.
From Verif Require Import Base M_Sectors M_Core M_Eta M_Formulas S_Formulas S_Eta P_Formulas M_Coupled P_Constant T_Coupled.
Open Scope R_scope.

(** the four entries of the exact step matrix of y'' = w y *)
Definition Kd (w d : R) (q : nat) : R := match q with 1%nat => Sw w d | 2%nat => w * Sw w d | _ => Cw w d end.
(** d is a distance for which neither rounding rule of calculateT gives a wrong step *)
Definition step_ok (h d : R) : Prop := d = 0 \/ / 10 ^ 12 < d /\ (d = h \/ d < h - / 10 ^ 12).

Lemma rsum_ext' : forall n f g, (forall i, (i < n)%nat -> f i = g i) -> rsum n f = rsum n g.
Proof. induction n as [|n IH]; intros f g H; cbn; [reflexivity|]. rewrite (IH f g), (H n) by (try lia; intros; apply H; lia). reflexivity. Qed.
Lemma rsum_pick : forall n f k, (k < n)%nat -> rsum n (fun i => if (i =? k)%nat then f i else 0) = f k.
Proof.
  assert (forall n f k, (n <= k)%nat -> rsum n (fun i => if (i =? k)%nat then f i else 0) = 0) as Z.
  { induction n as [|n IH]; intros f k H; cbn; [reflexivity|]. rewrite IH by lia. destruct (Nat.eqb_spec n k); [lia|ring]. }
  induction n as [|n IH]; intros f k H; cbn; [lia|]. destruct (Nat.eqb_spec n k) as [E|E].
  - subst. rewrite Z by lia. ring.
  - rewrite IH by lia. ring.
Qed.

Lemma ccalc_entries : forall n s E d u q r k, (q < 4)%nat -> (r < n)%nat -> (k < n)%nat ->
  (forall i a b, (1 <= i <= 8)%nat -> (a < n)%nat -> (b < n)%nat -> cs_vs s i a b = 0) ->
  (forall a b, (a < n)%nat -> (b < n)%nat -> rsum n (fun j => cs_Q s a j * cs_Q s b j) = if (a =? b)%nat then 1 else 0) ->
  step_ok (cs_h s) d ->
  cb (ccalculateT eta_exact n s E d u) q r k = rsum n (fun j => cs_Q s r j * Kd (cs_vs s 0%nat j j - E) d q * cs_Q s k j).
Proof.
  intros n s E d u q r k Hq Hr Hk Hv HQ Hd.
  assert (0 < / 10 ^ 12) as He by (apply Rinv_0_lt_compat, pow_lt; lra).
  assert (forall A, (forall i j, (i < n)%nat -> (j < n)%nat -> A i j = if (i =? j)%nat then Kd (cs_vs s 0%nat j j - E) d q else 0) ->
    mmult n (mmult n (cs_Q s) A) (mtr (cs_Q s)) r k = rsum n (fun j => cs_Q s r j * Kd (cs_vs s 0%nat j j - E) d q * cs_Q s k j)) as K.
  { intros A HA. unfold mmult, mtr. apply rsum_ext'. intros j Hj. f_equal.
    rewrite <- (rsum_pick n (fun i => cs_Q s r i * Kd (cs_vs s 0%nat j j - E) d q) j Hj). apply rsum_ext'. intros i Hi. rewrite HA by lia.
    destruct (i =? j)%nat; ring. }
  assert (forall w x, w * x * eta 1 (w * (x * x)) = w * Sw w x) as Q by (intros; unfold Sw; ring).
  unfold ccalculateT. destruct Hd as [H0|[H1 H2]].
  - subst d. rewrite (proj2 (Rleb_true _ _)) by (rewrite Rabs_R0; unfold EPS12; lra).
    assert (rsum n (fun j => cs_Q s r j * Kd (cs_vs s 0%nat j j - E) 0 q * cs_Q s k j) = rsum n (fun j => (if ((q =? 0) || (q =? 3))%nat then cs_Q s r j * cs_Q s k j else 0))) as ->.
    { apply rsum_ext'. intros j _. destruct q as [|[|[|[|q]]]]; [| | | |lia]; cbn; rewrite ?Cw_0, ?Sw_0; ring. }
    assert (rsum n (fun _ => 0) = 0) as Z by (clear; induction n; cbn; [reflexivity|lra]).
    destruct q as [|[|[|[|q]]]]; [| | | |lia]; cbn [Nat.eqb orb CTid cb]; [rewrite HQ by lia; reflexivity|rewrite Z; reflexivity|rewrite Z; reflexivity|rewrite HQ by lia; reflexivity].
  - rewrite (proj2 (Rleb_false _ _)) by (unfold EPS12; rewrite Rabs_right by lra; lra).
    assert (forall i j, (i < n)%nat -> (j < n)%nat -> cb (cblocks_delta eta_exact n s E d) q i j = if (i =? j)%nat then Kd (cs_vs s 0%nat j j - E) d q else 0) as KD.
    { intros i j Hi Hj. destruct (C63_constant_potential n s E i j d Hi Hj Hv) as [(A0 & A1 & A2 & A3) _]. cbv zeta in A0, A1, A2, A3. rewrite Q in A2.
      destruct q as [|[|[|[|q]]]]; [exact A0|exact A1|exact A2|exact A3|lia]. }
    destruct (u && Rleb (Rabs (d - cs_h s)) EPS12) eqn:U.
    + apply andb_true_iff in U. destruct U as [_ U]. apply Rleb_true in U. unfold EPS12 in U. destruct H2 as [H2|H2]; [|rewrite Rabs_left in U by lra; lra].
      unfold cstep_full, rebase. cbn [cb]. apply K. intros i j Hi Hj. rewrite H2.
      destruct (C63_constant_potential n s E i j d Hi Hj Hv) as [_ (A0 & A1 & A2 & A3)]. cbv zeta in A0, A1, A2, A3. rewrite Q in A2.
      destruct q as [|[|[|[|q]]]]; [exact A0|exact A1|exact A2|exact A3|lia].
    + unfold cstep_delta, rebase. cbn [cb]. apply K. exact KD.
Qed.

(** any distance: the step is the exact one over some distance (0, h or d itself) *)
Lemma ccalc_any : forall n s E d u,
  (forall i a b, (1 <= i <= 8)%nat -> (a < n)%nat -> (b < n)%nat -> cs_vs s i a b = 0) ->
  (forall a b, (a < n)%nat -> (b < n)%nat -> rsum n (fun j => cs_Q s a j * cs_Q s b j) = if (a =? b)%nat then 1 else 0) ->
  exists d', forall q r k, (q < 4)%nat -> (r < n)%nat -> (k < n)%nat ->
  cb (ccalculateT eta_exact n s E d u) q r k = rsum n (fun j => cs_Q s r j * Kd (cs_vs s 0%nat j j - E) d' q * cs_Q s k j).
Proof.
  intros n s E d u Hv HQ.
  assert (forall w x, w * x * eta 1 (w * (x * x)) = w * Sw w x) as Q by (intros; unfold Sw; ring).
  assert (forall x A q r k, (forall i j, (i < n)%nat -> (j < n)%nat -> A i j = if (i =? j)%nat then Kd (cs_vs s 0%nat j j - E) x q else 0) ->
    mmult n (mmult n (cs_Q s) A) (mtr (cs_Q s)) r k = rsum n (fun j => cs_Q s r j * Kd (cs_vs s 0%nat j j - E) x q * cs_Q s k j)) as K.
  { intros x A q r k HA. unfold mmult, mtr. apply rsum_ext'. intros j Hj. f_equal.
    rewrite <- (rsum_pick n (fun i => cs_Q s r i * Kd (cs_vs s 0%nat j j - E) x q) j Hj). apply rsum_ext'. intros i Hi. rewrite HA by lia.
    destruct (i =? j)%nat; ring. }
  unfold ccalculateT. destruct (Rleb (Rabs d) EPS12).
  - exists 0. intros q r k Hq Hr Hk.
    assert (rsum n (fun j => cs_Q s r j * Kd (cs_vs s 0%nat j j - E) 0 q * cs_Q s k j) = rsum n (fun j => (if ((q =? 0) || (q =? 3))%nat then cs_Q s r j * cs_Q s k j else 0))) as ->.
    { apply rsum_ext'. intros j _. destruct q as [|[|[|[|q]]]]; [| | | |lia]; cbn; rewrite ?Cw_0, ?Sw_0; ring. }
    assert (rsum n (fun _ => 0) = 0) as Z by (clear; induction n; cbn; [reflexivity|lra]).
    destruct q as [|[|[|[|q]]]]; [| | | |lia]; cbn [Nat.eqb orb CTid cb]; [rewrite HQ by lia; reflexivity|rewrite Z; reflexivity|rewrite Z; reflexivity|rewrite HQ by lia; reflexivity].
  - destruct (u && Rleb (Rabs (d - cs_h s)) EPS12).
    + exists (cs_h s). intros q r k Hq Hr Hk. unfold cstep_full, rebase. cbn [cb]. apply K. intros i j Hi Hj.
      destruct (C63_constant_potential n s E i j d Hi Hj Hv) as [_ (A0 & A1 & A2 & A3)]. cbv zeta in A0, A1, A2, A3. rewrite Q in A2.
      destruct q as [|[|[|[|q]]]]; [exact A0|exact A1|exact A2|exact A3|lia].
    + exists d. intros q r k Hq Hr Hk. unfold cstep_delta, rebase. cbn [cb]. apply K. intros i j Hi Hj.
      destruct (C63_constant_potential n s E i j d Hi Hj Hv) as [(A0 & A1 & A2 & A3) _]. cbv zeta in A0, A1, A2, A3. rewrite Q in A2.
      destruct q as [|[|[|[|q]]]]; [exact A0|exact A1|exact A2|exact A3|lia].
Qed.
