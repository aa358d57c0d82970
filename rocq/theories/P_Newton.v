(** Convergence of Newton's iteration for the matching error. *)
From Coq Require Import String ZArith Reals Lra Lia.
From Coquelicot Require Import Coquelicot.
From Coq Require Import List Bool.
From Verif Require Import Base M_Search P_Search P_SearchR T_Search.
Import ListNotations.
Open Scope R_scope.

Definition err_of (me : R -> bool -> R * R * R) (u : bool) (E : R) : R := fst (fst (me E u)).
Definition der_of (me : R -> bool -> R * R * R) (u : bool) (E : R) : R := snd (fst (me E u)).
Definition ang_of (me : R -> bool -> R * R * R) (u : bool) (E : R) : R := snd (me E u) / PI.

(** one step of Newton at least halves the distance where the derivative varies by less than half of itself *)
Lemma newton_step : forall (f f' : R -> R) Es rho x, f Es = 0 -> (forall y, Rabs (y - Es) <= rho -> is_derive f y (f' y)) ->
  (forall y z, Rabs (y - Es) <= rho -> Rabs (z - Es) <= rho -> Rabs (f' z - f' y) <= / 2 * Rabs (f' y)) ->
  Rabs (x - Es) <= rho -> f' x <> 0 -> Rabs (x - f x / f' x - Es) <= / 2 * Rabs (x - Es).
Proof.
  intros f f' Es rho x H0 HD HV Hx Nx.
  destruct (MVT_gen f Es x f') as (c & Hc & Ec).
  - intros y Hy. apply HD. apply Rabs_le. apply Rabs_le_between in Hx. unfold Rmin, Rmax in Hy. destruct (Rle_dec Es x); lra.
  - intros y Hy. apply continuity_pt_filterlim, (ex_derive_continuous f). exists (f' y). apply HD. apply Rabs_le. apply Rabs_le_between in Hx. unfold Rmin, Rmax in Hy. destruct (Rle_dec Es x); lra.
  - rewrite H0, Rminus_0_r in Ec.
    assert (Rabs (c - Es) <= rho) as Hcr. { apply Rabs_le. apply Rabs_le_between in Hx. unfold Rmin, Rmax in Hc. destruct (Rle_dec Es x); lra. }
    specialize (HV x c Hx Hcr). rewrite Ec. replace (x - f' c * (x - Es) / f' x - Es) with (- ((f' c - f' x) / f' x * (x - Es))) by (field; exact Nx).
    rewrite Rabs_Ropp, Rabs_mult. apply Rmult_le_compat_r; [apply Rabs_pos|]. rewrite Rabs_div by exact Nx.
    apply (Rmult_le_reg_r (Rabs (f' x))); [apply Rabs_pos_lt, Nx|]. unfold Rdiv. rewrite Rmult_assoc, Rinv_l, Rmult_1_r; [exact HV|apply Rabs_no_R0, Nx].
Qed.

Section Newton.
Variable me : R -> bool -> R * R * R.
Variables tol Es rho : R.
Variable u : bool.
Hypothesis H0 : err_of me u Es = 0.
Hypothesis HD : forall y, Rabs (y - Es) <= rho -> is_derive (err_of me u) y (der_of me u y).
Hypothesis HN : forall y, Rabs (y - Es) <= rho -> der_of me u y <> 0.
Hypothesis HV : forall y z, Rabs (y - Es) <= rho -> Rabs (z - Es) <= rho -> Rabs (der_of me u z - der_of me u y) <= / 2 * Rabs (der_of me u y).

Lemma loop_converges : forall n i E r, (Z.of_nat n + i = 20)%Z -> (0 < n)%nat -> 0 <= r <= rho -> Rabs (E - Es) <= r ->
  exists E' El points, newton_loop me tol n i E u = Ret (E', snd (me El u), points) /\ Rabs (El - Es) <= r /\
    E' = El - err_of me u El / der_of me u El /\
    Rabs (E' - Es) <= / 2 * Rabs (El - Es) /\
    (Rabs (El - Es) <= 2 * tol /\ Rabs (E' - Es) <= tol \/ Rabs (El - Es) <= r / 2 ^ (n - 1) /\ Rabs (E' - Es) <= r / 2 ^ n).
Proof using H0 HD HN HV.
  induction n as [|n IH]; intros i E r Hn Hp Hr HE; [lia|].
  assert (Rabs (E - Es) <= rho) as HE' by lra.
  pose proof (newton_step (err_of me u) (der_of me u) Es rho E H0 HD HV HE' (HN E HE')) as St.
  cbn [newton_loop]. destruct (me E u) as [[e d] th] eqn:Me.
  assert (err_of me u E = e) as Ee by (unfold err_of; rewrite Me; reflexivity).
  assert (der_of me u E = d) as Ed by (unfold der_of; rewrite Me; reflexivity). rewrite Ee, Ed in St.
  change (sdiv e d) with (e / d). change (ssub E (e / d)) with (E - e / d). change (slt tol (sabs (e / d))) with (Rltb tol (Rabs (e / d))).
  destruct ((i + 1 <? 20)%Z && Rltb tol (Rabs (e / d))) eqn:Go.
  - apply andb_prop in Go as [G1 G2]. apply Z.ltb_lt in G1.
    destruct (IH (i + 1)%Z (E - e / d) (r / 2) ltac:(lia) ltac:(lia) ltac:(lra)) as (E' & El & pts & A & B & C & D & F); [lra|].
    rewrite A. cbn [bind fst snd]. exists E', El, (E :: pts). split; [reflexivity|]. split; [lra|]. split; [exact C|]. split; [exact D|].
    destruct F as [F|[F1 F2]]; [left; exact F|right]. assert (0 < n)%nat as Hn0 by lia. split.
    + replace (S n - 1)%nat with (S (n - 1)) by lia. cbn [pow]. replace (r / (2 * 2 ^ (n - 1))) with (r / 2 / 2 ^ (n - 1)); [exact F1|]. field. apply pow_nonzero; lra.
    + cbn [pow]. replace (r / (2 * 2 ^ n)) with (r / 2 / 2 ^ n); [exact F2|]. field. apply pow_nonzero; lra.
  - exists (E - e / d), E, [E]. rewrite Me. cbn [snd]. split; [reflexivity|]. split; [exact HE|]. rewrite Ee, Ed. split; [reflexivity|]. split; [exact St|].
    apply andb_false_iff in Go as [Go|Go].
    + right. apply Z.ltb_ge in Go. assert (n = 0)%nat as -> by lia. cbn [Nat.sub pow]. split; [lra|]. lra.
    + left. apply Rltb_false in Go. assert (Rabs (E - Es) <= Rabs (e / d) + Rabs (E - e / d - Es)) as T.
      { replace (E - Es) with (e / d + (E - e / d - Es)) at 1 by ring. apply Rabs_triang. }
      split; lra.
Qed.

Lemma round_near : forall x k, Rabs (x - IZR k) < / 2 -> Rround x = k.
Proof.
  intros x k H. apply Rabs_def2 in H. unfold Rround. destruct (Rleb 0 x) eqn:L.
  - apply floor_unique. lra.
  - assert (Rfloor (- x + / 2) = (- k)%Z) as Q by (apply floor_unique; rewrite opp_IZR; lra). unfold Rfloor in Q. rewrite Q. lia.
Qed.

Lemma newton_converges : forall k E, (0 <= k <= 2147483647)%Z -> (forall y, Rabs (y - Es) <= rho -> Rabs (ang_of me u y - IZR k) < / 2) ->
  Rabs (E - Es) <= rho ->
  exists E' El, newton me tol E u = Ret (k, E') /\ Rabs (El - Es) <= rho /\ E' = El - err_of me u El / der_of me u El /\
    Rabs (E' - Es) <= / 2 * Rabs (El - Es) /\ (Rabs (El - Es) <= 2 * tol \/ Rabs (El - Es) <= rho / 2 ^ 19) /\ Rabs (E' - Es) <= Rmax tol (rho / 2 ^ 20).
Proof using H0 HD HN HV.
  intros k E Hk HA HE. pose proof (Rabs_pos (E - Es)).
  destruct (loop_converges 20 0 E rho ltac:(lia) ltac:(lia) ltac:(lra) HE) as (E' & El & pts & A & B & C & D & F).
  exists E', El. unfold newton. rewrite A. cbn [bind]. split.
  { change (sdiv (snd (me El u)) spi) with (ang_of me u El). change (iround (ang_of me u El)) with (toint (Rround (ang_of me u El))).
    rewrite (round_near _ k (HA El B)). unfold toint. assert (int_ok k = true) as -> by (unfold int_ok; apply andb_true_intro; split; apply Z.leb_le; lia).
    cbn [oint bind]. destruct (Z.ltb_spec k 0); [lia|reflexivity]. }
  split; [exact B|]. split; [exact C|]. split; [exact D|]. destruct F as [[F1 F2]|[F1 F2]].
  - split; [left; exact F1|]. eapply Rle_trans; [exact F2|apply Rmax_l].
  - split; [right; exact F1|]. eapply Rle_trans; [exact F2|apply Rmax_r].
Qed.
End Newton.

(** a neighbourhood in which all this holds, around a simple zero *)
Lemma simple_zero_neighbourhood : forall (me : R -> bool -> R * R * R) u Es k r0, 0 < r0 ->
  (forall y, Rabs (y - Es) <= r0 -> is_derive (err_of me u) y (der_of me u y)) -> continuous (der_of me u) Es -> der_of me u Es <> 0 ->
  continuous (ang_of me u) Es -> ang_of me u Es = IZR k ->
  exists rho, 0 < rho <= r0 /\
    (forall y, Rabs (y - Es) <= rho -> is_derive (err_of me u) y (der_of me u y)) /\
    (forall y, Rabs (y - Es) <= rho -> der_of me u y <> 0) /\
    (forall y z, Rabs (y - Es) <= rho -> Rabs (z - Es) <= rho -> Rabs (der_of me u z - der_of me u y) <= / 2 * Rabs (der_of me u y)) /\
    (forall y, Rabs (y - Es) <= rho -> Rabs (ang_of me u y - IZR k) < / 2).
Proof.
  intros me u Es k r0 Hr0 HD HC HN HA Hk. set (d := der_of me u Es) in *. pose proof (Rabs_pos_lt d HN) as Hd.
  assert (near : forall (g : R -> R) e, continuous g Es -> 0 < e -> exists del, 0 < del /\ forall y, Rabs (y - Es) < del -> Rabs (g y - g Es) < e).
  { intros g e Hg He. apply continuity_pt_filterlim in Hg. destruct (Hg e He) as (del & Hdel & Q). exists del. split; [exact Hdel|]. intros y Hy.
    destruct (Req_dec y Es) as [->|Ne]; [rewrite Rminus_eq_0, Rabs_R0; exact He|]. apply Q. split; [split; [exact I|intro K; apply Ne; symmetry; exact K]|exact Hy]. }
  destruct (near (der_of me u) (Rabs d / 6) HC ltac:(lra)) as (d1 & Hd1 & N1). destruct (near (ang_of me u) (/ 2) HA ltac:(lra)) as (d2 & Hd2 & N2).
  fold d in N1. exists (Rmin r0 (Rmin (d1 / 2) (d2 / 2))).
  assert (Rmin r0 (Rmin (d1 / 2) (d2 / 2)) <= r0 /\ Rmin r0 (Rmin (d1 / 2) (d2 / 2)) <= d1 / 2 /\ Rmin r0 (Rmin (d1 / 2) (d2 / 2)) <= d2 / 2) as (L1 & L2 & L3).
  { pose proof (Rmin_l r0 (Rmin (d1 / 2) (d2 / 2))). pose proof (Rmin_r r0 (Rmin (d1 / 2) (d2 / 2))). pose proof (Rmin_l (d1 / 2) (d2 / 2)). pose proof (Rmin_r (d1 / 2) (d2 / 2)). lra. }
  assert (0 < Rmin r0 (Rmin (d1 / 2) (d2 / 2))) as P by (repeat apply Rmin_pos; lra). set (rho := Rmin _ _) in *.
  assert (B : forall y, Rabs (y - Es) <= rho -> Rabs (der_of me u y - d) < Rabs d / 6) by (intros y Hy; apply N1; lra).
  assert (Lo : forall y, Rabs (y - Es) <= rho -> 5 / 6 * Rabs d < Rabs (der_of me u y)).
  { intros y Hy. specialize (B y Hy). pose proof (Rabs_triang_inv d (d - der_of me u y)). replace (d - (d - der_of me u y)) with (der_of me u y) in H by ring.
    rewrite (Rabs_minus_sym d) in H. lra. }
  split; [lra|]. split; [intros y Hy; apply HD; lra|]. split; [intros y Hy Z; specialize (Lo y Hy); rewrite Z, Rabs_R0 in Lo; lra|]. split.
  - intros y z Hy Hz. pose proof (B y Hy) as By. pose proof (B z Hz) as Bz. pose proof (Lo y Hy). pose proof (Rabs_triang (der_of me u z - d) (d - der_of me u y)) as T.
    replace (der_of me u z - d + (d - der_of me u y)) with (der_of me u z - der_of me u y) in T by ring. rewrite (Rabs_minus_sym d) in T. lra.
  - intros y Hy. rewrite <- Hk. apply N2. lra.
Qed.

(** quadratic order: when the derivative is Lipschitz, the last step squares the distance *)
Lemma newton_quadratic : forall (f f' : R -> R) Es rho m M x, f Es = 0 -> 0 < m -> 0 <= M -> (forall y, Rabs (y - Es) <= rho -> is_derive f y (f' y)) ->
  (forall y z, Rabs (y - Es) <= rho -> Rabs (z - Es) <= rho -> Rabs (f' z - f' y) <= M * Rabs (z - y)) ->
  Rabs (x - Es) <= rho -> m <= Rabs (f' x) -> Rabs (x - f x / f' x - Es) <= M / m * (Rabs (x - Es) * Rabs (x - Es)).
Proof.
  intros f f' Es rho m M x H0 Hm HM HD HL Hx Nx.
  assert (f' x <> 0) as N0 by (intro Z; rewrite Z, Rabs_R0 in Nx; lra).
  destruct (MVT_gen f Es x f') as (c & Hc & Ec).
  - intros y Hy. apply HD. apply Rabs_le. apply Rabs_le_between in Hx. unfold Rmin, Rmax in Hy. destruct (Rle_dec Es x); lra.
  - intros y Hy. apply continuity_pt_filterlim, (ex_derive_continuous f). exists (f' y). apply HD. apply Rabs_le. apply Rabs_le_between in Hx. unfold Rmin, Rmax in Hy. destruct (Rle_dec Es x); lra.
  - rewrite H0, Rminus_0_r in Ec.
    assert (Rabs (c - Es) <= rho) as Hcr. { apply Rabs_le. apply Rabs_le_between in Hx. unfold Rmin, Rmax in Hc. destruct (Rle_dec Es x); lra. }
    assert (Rabs (c - x) <= Rabs (x - Es)) as Hcx. { unfold Rmin, Rmax in Hc. apply Rabs_le. destruct (Rle_dec Es x); [rewrite Rabs_right by lra|rewrite Rabs_left by lra]; lra. }
    specialize (HL x c Hx Hcr). rewrite Ec. replace (x - f' c * (x - Es) / f' x - Es) with (- ((f' c - f' x) / f' x * (x - Es))) by (field; exact N0).
    rewrite Rabs_Ropp, Rabs_mult, <- Rmult_assoc. apply Rmult_le_compat_r; [apply Rabs_pos|]. rewrite Rabs_div by exact N0.
    pose proof (Rabs_pos (x - Es)) as P1. pose proof (Rabs_pos (c - x)) as P2.
    apply Rle_trans with (M * Rabs (x - Es) / Rabs (f' x)).
    + apply Rmult_le_compat_r; [left; apply Rinv_0_lt_compat; lra|]. eapply Rle_trans; [exact HL|]. apply Rmult_le_compat_l; assumption.
    + unfold Rdiv. rewrite Rmult_assoc, (Rmult_comm (Rabs (x - Es))), <- Rmult_assoc. apply Rmult_le_compat_r; [exact P1|]. apply Rmult_le_compat_l; [exact HM|]. apply Rinv_le_contravar; assumption.
Qed.
