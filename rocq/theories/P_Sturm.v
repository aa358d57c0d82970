(** Sturm comparison: raising the energy turns the angle of the solution forward. *)
From Coq Require Import Reals ZArith Lra Lia Bool.
From Coquelicot Require Import Coquelicot.
From Coq Require Import List.
From Verif Require Import Base M_Sectors S_Sectors P_Lookup M_Core S_Core P_Core P_Core2 P_Prufer S_Formulas P_Terms2 S_Accuracy S_Zeros P_Lift P_Lift2 P_Cross P_Global2 P_Global3 P_Step P_Step2 P_Count P_Count2.
Import ListNotations.
Open Scope R_scope.

Lemma strict_mvt : forall (f g : R -> R) a b, a < b -> (forall x, a < x < b -> is_derive f x (g x)) -> (forall x, a <= x <= b -> continuous f x) ->
  exists c, a < c < b /\ f b - f a = g c * (b - a).
Proof.
  intros f g a b Hab D C.
  assert (forall c, a < c < b -> derivable_pt f c) as pr1 by (intros c Hc; exists (g c); apply is_derive_Reals, D, Hc).
  assert (forall c, a < c < b -> derivable_pt id c) as pr2 by (intros c Hc; apply derivable_pt_id).
  destruct (MVT f id a b pr1 pr2 Hab) as (c & Hc & E).
  - intros c Hc. apply continuity_pt_filterlim, C, Hc.
  - intros c Hc. apply derivable_continuous_pt, derivable_pt_id.
  - exists c. split; [exact Hc|]. unfold id in E at 1 2.
    rewrite (derive_pt_eq_0 f c (g c) (pr1 c Hc)) in E by (apply is_derive_Reals, D, Hc).
    rewrite (derive_pt_eq_0 id c 1 (pr2 c Hc)) in E by (apply derivable_pt_lim_id). lra.
Qed.

(** near a zero the solution has the sign of (y - x) z'(x) *)
Lemma zero_sign : forall V E p q z z', sol_on V E p q z z' -> forall x, p <= x <= q -> z x = 0 -> z' x <> 0 ->
  exists d, 0 < d /\ forall y, p <= y <= q -> Rabs (y - x) < d -> y <> x -> 0 < z y * z' x * (y - x).
Proof.
  intros V E p q z z' [C D] x Hx Z0 Z1. assert (0 < z' x * z' x) as Z2 by nra.
  destruct (near_pos (fun t => z' x * z' t) x 0) as (d & Hd & H).
  { apply (continuous_mult (fun _ => z' x) z'); [apply continuous_const|apply C, Hx]. }
  { exact Z2. }
  exists d. split; [exact Hd|]. intros y Hy Hyd Hne.
  assert (exists c, Rabs (c - x) < d /\ z y - z x = z' c * (y - x)) as (c & Hc & Ec).
  { destruct (Rlt_le_dec x y) as [L|L].
    - destruct (strict_mvt z z' x y L) as (c & Hc & E1); [intros t Ht; apply D; lra|intros t Ht; apply C; lra|]. exists c. split; [|exact E1].
      apply Rabs_def2 in Hyd. apply Rabs_def1; lra.
    - assert (y < x) as L' by lra. destruct (strict_mvt z z' y x L') as (c & Hc & E1); [intros t Ht; apply D; lra|intros t Ht; apply C; lra|]. exists c. split; [|lra].
      apply Rabs_def2 in Hyd. apply Rabs_def1; lra. }
  specialize (H c Hc). rewrite Z0, Rminus_0_r in Ec. rewrite Ec.
  replace (z' c * (y - x) * z' x * (y - x)) with (z' x * z' c * ((y - x) * (y - x))) by ring. apply Rmult_lt_0_compat; [exact H|]. assert (y - x <> 0) by lra. nra.
Qed.

(** Sturm comparison: the second equation has the smaller coefficient *)
Lemma diff_cross2 : forall V1 V2 E1 E2 s z1 z1' z2 z2' p q f1 f2, 0 < s -> (forall t, p < t < q -> V2 t - E2 < V1 t - E1) -> sol_on V1 E1 p q z1 z1' -> sol_on V2 E2 p q z2 z2' ->
  nowhere_zero z1 z1' p q -> nowhere_zero z2 z2' p q -> ang s z1 z1' p q f1 -> ang s z2 z2' p q f2 ->
  forall k x, p <= x <= q -> f2 x - f1 x = IZR k * PI ->
  exists d, 0 < d /\ forall y, p <= y <= q -> Rabs (y - x) < d -> (x < y -> IZR k * PI < f2 y - f1 y) /\ (y < x -> f2 y - f1 y < IZR k * PI).
Proof.
  intros V1 V2 E1 E2 s z1 z1' z2 z2' p q f1 f2 Hs HE S1 S2 N1 N2 A1 A2 k x Hx Ek. pose proof PIpos as HP.
  pose proof S1 as [C1 D1]. pose proof S2 as [C2 D2].
  destruct (ang_polar s z1 z1' p q f1 Hs C1 N1 A1) as [c1 P1]. destruct (ang_polar s z2 z2' p q f2 Hs C2 N2 A2) as [c2 P2].
  destruct (shift_sign k) as (e & He & Sh).
  (* z2 = rho z1 at x *)
  destruct (P1 x Hx) as (Q1 & P1s & P1c). destruct (P2 x Hx) as (Q2 & P2s & P2c).
  assert (c1 x <> 0) as N1x by (intro Z; rewrite Z in Q1; lra). assert (c2 x <> 0) as N2x by (intro Z; rewrite Z in Q2; lra).
  replace (f2 x) with (f1 x + IZR k * PI) in P2s, P2c by lra. rewrite (proj1 (Sh (f1 x))) in P2s. rewrite (proj2 (Sh (f1 x))) in P2c.
  set (rho := e * c2 x / c1 x).
  assert (z2 x = rho * z1 x) as R0.
  { apply (Rmult_eq_reg_l s); [|lra]. rewrite P2s. replace (s * (rho * z1 x)) with (rho * (s * z1 x)) by ring. rewrite P1s. unfold rho. field. exact N1x. }
  assert (z2' x = rho * z1' x) as R1. { rewrite P2c, P1c. unfold rho. field. exact N1x. }
  assert (0 < rho * rho) as Hr.
  { assert (rho <> 0). { unfold rho. intro Z. apply Rmult_integral in Z as [Z|Z]; [apply Rmult_integral in Z as [Z|Z]; [rewrite Z in He; lra|contradiction]|]. revert Z. apply Rinv_neq_0_compat, N1x. } nra. }
  (* near x the product rho z1 z2 is positive *)
  assert (exists d, 0 < d /\ forall y, p <= y <= q -> Rabs (y - x) < d -> y <> x -> 0 < rho * (z1 y * z2 y)) as (d1 & Hd1 & H1).
  { destruct (Req_dec (z1 x) 0) as [Z|Z].
    - assert (z1' x <> 0) as Z1 by (destruct (N1 x Hx); [contradiction|assumption]).
      assert (z2 x = 0) as ZZ by (rewrite R0, Z; ring). assert (z2' x <> 0) as Z2 by (destruct (N2 x Hx); [contradiction|assumption]).
      destruct (zero_sign V1 E1 p q z1 z1' S1 x Hx Z Z1) as (da & Ha & HA). destruct (zero_sign V2 E2 p q z2 z2' S2 x Hx ZZ Z2) as (db & Hb & HB).
      exists (Rmin da db). split; [apply Rmin_glb_lt; assumption|]. intros y Hy Hyd Hne.
      specialize (HA y Hy ltac:(eapply Rlt_le_trans; [exact Hyd|apply Rmin_l]) Hne). specialize (HB y Hy ltac:(eapply Rlt_le_trans; [exact Hyd|apply Rmin_r]) Hne).
      rewrite R1 in HB. pose proof (Rmult_lt_0_compat _ _ HA HB) as M.
      replace (z1 y * z1' x * (y - x) * (z2 y * (rho * z1' x) * (y - x))) with (((z1' x * (y - x)) * (z1' x * (y - x))) * (rho * (z1 y * z2 y))) in M by ring.
      assert (0 <= (z1' x * (y - x)) * (z1' x * (y - x))) as Sq by nra.
      destruct (Rlt_le_dec 0 (rho * (z1 y * z2 y))) as [|L]; [assumption|]. exfalso. nra.
    - destruct (near_pos (fun t => rho * (z1 t * z2 t)) x 0) as (d & Hd & H).
      + apply (continuous_mult (fun _ => rho) (fun t => z1 t * z2 t)); [apply continuous_const|]. apply (continuous_mult z1 z2); [apply C1, Hx|apply C2, Hx].
      + cbv beta. rewrite R0. replace (rho * (z1 x * (rho * z1 x))) with (rho * rho * (z1 x * z1 x)) by ring. apply Rmult_lt_0_compat; [exact Hr|nra].
      + exists d. split; [exact Hd|]. intros y _ Hyd _. apply H, Hyd. }
  (* the Wronskian *)
  set (W := fun t => z2 t * z1' t - z2' t * z1 t).
  assert (W x = 0) as W0 by (unfold W; rewrite R0, R1; ring).
  assert (forall t, p < t < q -> is_derive W t (((V1 t - E1) - (V2 t - E2)) * (z1 t * z2 t))) as DW.
  { intros t Ht. destruct (D1 t Ht) as [A B]. destruct (D2 t Ht) as [A' B']. unfold W. evar_last.
    - apply (is_derive_minus (fun t => z2 t * z1' t) (fun t => z2' t * z1 t)).
      + apply (is_derive_mult z2 z1' t _ _ A' B). intros; apply Rmult_comm.
      + apply (is_derive_mult z2' z1 t _ _ B' A). intros; apply Rmult_comm.
    - unfold minus, plus, opp, mult; simpl. ring. }
  assert (forall t, p <= t <= q -> continuous W t) as CW.
  { intros t Ht. destruct (C1 t Ht), (C2 t Ht). apply (continuous_minus (fun t => z2 t * z1' t) (fun t => z2' t * z1 t)); [apply (continuous_mult z2 z1')|apply (continuous_mult z2' z1)]; assumption. }
  assert (forall y, p <= y <= q -> Rabs (y - x) < d1 -> y <> x -> 0 < rho * W y * (y - x)) as SW.
  { intros y Hy Hyd Hne.
    assert (exists c, p < c < q /\ Rabs (c - x) < d1 /\ c <> x /\ W y - W x = ((V1 c - E1) - (V2 c - E2)) * (z1 c * z2 c) * (y - x)) as (c & Hc & Hcd & Hcx & Ec).
    { destruct (Rlt_le_dec x y) as [L|L].
      - destruct (strict_mvt W (fun t => ((V1 t - E1) - (V2 t - E2)) * (z1 t * z2 t)) x y L) as (c & Hc & Eq); [intros t Ht; apply DW; lra|intros t Ht; apply CW; lra|].
        exists c. apply Rabs_def2 in Hyd. split; [lra|]. split; [apply Rabs_def1; lra|]. split; [lra|exact Eq].
      - assert (y < x) as L' by lra. destruct (strict_mvt W (fun t => ((V1 t - E1) - (V2 t - E2)) * (z1 t * z2 t)) y x L') as (c & Hc & Eq); [intros t Ht; apply DW; lra|intros t Ht; apply CW; lra|].
        exists c. apply Rabs_def2 in Hyd. split; [lra|]. split; [apply Rabs_def1; lra|]. split; [lra|lra]. }
    specialize (H1 c ltac:(lra) Hcd Hcx). specialize (HE c Hc). rewrite W0, Rminus_0_r in Ec. rewrite Ec.
    replace (rho * (((V1 c - E1) - (V2 c - E2)) * (z1 c * z2 c) * (y - x)) * (y - x)) with (((V1 c - E1) - (V2 c - E2)) * ((y - x) * (y - x)) * (rho * (z1 c * z2 c))) by ring.
    apply Rmult_lt_0_compat; [apply Rmult_lt_0_compat; [lra|]|exact H1]. assert (y - x <> 0) by lra. nra. }
  (* the sine of the difference *)
  destruct A1 as [Cf1 _]. destruct A2 as [Cf2 _].
  destruct (near (fun t => f2 t - f1 t) x (PI / 2) ltac:(apply (continuous_minus f2 f1); auto) ltac:(lra)) as (d2 & Hd2 & H2).
  exists (Rmin d1 d2). split; [apply Rmin_glb_lt; assumption|]. intros y Hy Hyd.
  assert (Rabs (y - x) < d1) as Y1 by (eapply Rlt_le_trans; [exact Hyd|apply Rmin_l]).
  assert (Rabs (y - x) < d2) as Y2 by (eapply Rlt_le_trans; [exact Hyd|apply Rmin_r]).
  specialize (H2 y Y2). cbv beta in H2. rewrite Ek in H2. apply Rabs_def2 in H2. set (dd := f2 y - f1 y - IZR k * PI) in *.
  assert (y <> x -> 0 < sin dd * (y - x)) as Key.
  { intro Hne. specialize (SW y Hy Y1 Hne). destruct (P1 y Hy) as (T1 & U1 & Y1'). destruct (P2 y Hy) as (T2 & U2 & Y2').
    replace (f2 y) with ((f1 y + dd) + IZR k * PI) in U2, Y2' by (unfold dd; ring). rewrite (proj1 (Sh _)) in U2. rewrite (proj2 (Sh _)) in Y2'.
    assert (s * W y = c1 y * c2 y * e * sin dd) as EW.
    { unfold W. replace (s * (z2 y * z1' y - z2' y * z1 y)) with ((s * z2 y) * z1' y - z2' y * (s * z1 y)) by ring.
      rewrite U1, Y1', U2, Y2'. rewrite sin_plus, cos_plus.
      replace (sin dd) with (sin dd * (sin (f1 y) * sin (f1 y) + cos (f1 y) * cos (f1 y))) at 3.
      - ring.
      - pose proof (sin2_cos2 (f1 y)) as P. unfold Rsqr in P. rewrite P. ring. }
    assert (0 < rho * (e * (c1 y * c2 y))) as Sg.
    { unfold rho. replace (e * c2 x / c1 x * (e * (c1 y * c2 y))) with ((e * e) * ((c2 x * c2 y) * (c1 x * c1 y)) / (c1 x * c1 x)) by (field; exact N1x).
      rewrite He. apply Rdiv_lt_0_compat; [|nra]. rewrite Rmult_1_l.
      assert (forall a b g, 0 < a * b -> 0 < a * g -> 0 < b * g) as Pos. { intros a b g X Y. destruct (Rlt_le_dec 0 (b * g)) as [|Z]; [assumption|]. exfalso. assert (0 < a * b * (a * g)) by (apply Rmult_lt_0_compat; assumption). assert (0 <= a * a) by nra. nra. }
      apply Rmult_lt_0_compat; [apply (Pos (c2 p)); assumption|apply (Pos (c1 p)); assumption]. }
    assert (0 < (rho * (e * (c1 y * c2 y))) * (sin dd * (y - x))) as Fin.
    { replace (rho * (e * (c1 y * c2 y)) * (sin dd * (y - x))) with (rho * (c1 y * c2 y * e * sin dd) * (y - x)) by ring. rewrite <- EW.
      replace (rho * (s * W y) * (y - x)) with (s * (rho * W y * (y - x))) by ring. apply Rmult_lt_0_compat; assumption. }
    destruct (Rlt_le_dec 0 (sin dd * (y - x))) as [|Z]; [assumption|]. exfalso.
    assert (rho * (e * (c1 y * c2 y)) * (sin dd * (y - x)) <= rho * (e * (c1 y * c2 y)) * 0) by (apply Rmult_le_compat_l; lra). lra. }
  split; intro L.
  - specialize (Key ltac:(lra)). destruct (Rlt_le_dec 0 dd) as [|G]; [unfold dd in *; lra|exfalso].
    assert (0 <= sin (- dd)) as B by (apply sin_ge_0; lra). rewrite sin_neg in B. nra.
  - specialize (Key ltac:(lra)). destruct (Rlt_le_dec dd 0) as [|G]; [unfold dd in *; lra|exfalso].
    assert (0 <= sin dd) as B by (apply sin_ge_0; lra). nra.
Qed.

(** ---- on the whole interval *)
Section Whole.
Variables (l : list sec) (lo hi : R).
Hypothesis PT : partition lo hi l.
Variables V1 V2 : R -> R.
Variables (E1 E2 s : R).
Hypothesis HE : forall t x, In t l -> smin t < x < smax t -> V2 x - E2 < V1 x - E1.
Hypothesis Hs : 0 < s.
Variables z1 z1' z2 z2' : R -> R.
Hypothesis S1 : solution V1 E1 lo hi l z1 z1'.
Hypothesis S2 : solution V2 E2 lo hi l z2 z2'.
Hypothesis N1 : nontrivial z1 z1' lo hi.
Hypothesis N2 : nontrivial z2 z2' lo hi.
Hypothesis Ho : forall s, In s l -> smin s < smax s.
Variables f1 f2 : R -> R.
Hypothesis A1 : ang s z1 z1' lo hi f1.
Hypothesis A2 : ang s z2 z2' lo hi f2.

Lemma diff_up2 : up_right (fun x => f2 x - f1 x) lo hi /\ up_left (fun x => f2 x - f1 x) lo hi.
Proof.
  destruct (order_in l lo hi PT Ho) as [_ O].
  assert (forall t, In t l -> forall k x, smin t <= x <= smax t -> f2 x - f1 x = IZR k * PI ->
    exists d, 0 < d /\ forall y, smin t <= y <= smax t -> Rabs (y - x) < d -> (x < y -> IZR k * PI < f2 y - f1 y) /\ (y < x -> f2 y - f1 y < IZR k * PI)) as K.
  { intros t Ht. destruct (O t Ht) as [O1 O2]. apply (diff_cross2 V1 V2 E1 E2 s z1 z1' z2 z2' (smin t) (smax t) f1 f2 Hs).
    - intros x Hx. apply (HE t x Ht Hx).
    - apply (sol_sector l lo hi PT V1 E1 z1 z1' S1 Ho t Ht).
    - apply (sol_sector l lo hi PT V2 E2 z2 z2' S2 Ho t Ht).
    - intros x Hx. apply N1. lra.
    - intros x Hx. apply N2. lra.
    - apply (lift_sub _ _ lo hi); [exact A1|lra|lra].
    - apply (lift_sub _ _ lo hi); [exact A2|lra|lra]. }
  split; intros k x Hx Ek.
  - destruct (chain_right l lo hi x (proj2 PT) Hx) as (t & Hin & Hxs). destruct (K t Hin k x ltac:(lra) Ek) as (d & Hd & H).
    exists (Rmin d (smax t - x)). split; [apply Rmin_glb_lt; lra|]. intros y Hy _. pose proof (Rmin_l d (smax t - x)). pose proof (Rmin_r d (smax t - x)).
    apply H; [lra|apply Rabs_def1; lra|lra].
  - destruct (chain_left l lo hi x (proj2 PT) Hx) as (t & Hin & Hxs). destruct (K t Hin k x ltac:(lra) Ek) as (d & Hd & H).
    exists (Rmin d (x - smin t)). split; [apply Rmin_glb_lt; lra|]. intros y Hy _. pose proof (Rmin_l d (x - smin t)). pose proof (Rmin_r d (x - smin t)).
    apply H; [lra|apply Rabs_def1; lra|lra].
Qed.
(** once ahead by k half turns, the solution of the higher energy stays ahead *)
Lemma sturm2 : forall k x y, lo <= x -> x < y -> y <= hi -> IZR k * PI <= f2 x - f1 x -> IZR k * PI < f2 y - f1 y.
Proof.
  destruct diff_up2 as [U1 U2]. apply (level_up (fun x => f2 x - f1 x) lo hi); [|exact U1|exact U2].
  intro x. apply (continuous_minus f2 f1); [apply A2|apply A1].
Qed.
End Whole.
(** the same potential at two energies *)
Lemma sturm : forall (l : list sec) (lo hi : R), partition lo hi l -> forall (V : R -> R) (E1 E2 s : R), E1 < E2 -> 0 < s -> forall z1 z1' z2 z2' : R -> R,
  solution V E1 lo hi l z1 z1' -> solution V E2 lo hi l z2 z2' -> nontrivial z1 z1' lo hi -> nontrivial z2 z2' lo hi -> (forall s, In s l -> smin s < smax s) ->
  forall f1 f2 : R -> R, ang s z1 z1' lo hi f1 -> ang s z2 z2' lo hi f2 ->
  forall k x y, lo <= x -> x < y -> y <= hi -> IZR k * PI <= f2 x - f1 x -> IZR k * PI < f2 y - f1 y.
Proof.
  intros l lo hi PT V E1 E2 s HE Hs z1 z1' z2 z2' S1 S2 N1 N2 Ho f1 f2 A1 A2. apply (sturm2 l lo hi PT V V E1 E2 s) with (z1 := z1) (z1' := z1') (z2 := z2) (z2' := z2'); auto. intros; lra.
Qed.
