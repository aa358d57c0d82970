(** Continuous angles: uniqueness, derivative; crossings of multiples of pi. *)
From Coq Require Import Reals ZArith Lra Lia.
From Coquelicot Require Import Coquelicot.
From Coq Require Import List.
From Verif Require Import Base M_Sectors M_Core S_Core P_Prufer S_Formulas P_Terms2 S_Zeros P_Lift.
Import ListNotations.
Open Scope R_scope.

Lemma angles_pi : forall u v a b, u <> 0 \/ v <> 0 -> u * cos a = v * sin a -> u * cos b = v * sin b -> multiple_of_pi (a - b).
Proof.
  intros u v a b Hn Ha Hb. apply (angle_diff 1 a b (mkY u v 0 0)); unfold nonzero, is_angle; cbn [y0 y1]; auto; rewrite ?Rmult_1_l; auto.
Qed.
Lemma mult_pi_small : forall x, multiple_of_pi x -> - PI < x < PI -> x = 0.
Proof.
  intros x [k ->] H. pose proof PIpos. assert (-1 < k < 1)%Z as Hk; [|assert (k = 0%Z) as -> by lia; ring].
  split; apply lt_IZR; [apply (Rmult_lt_reg_r PI)|apply (Rmult_lt_reg_r PI)]; lra.
Qed.
Lemma mult_pi_minus : forall x y, multiple_of_pi x -> multiple_of_pi y -> multiple_of_pi (x - y).
Proof. intros x y [k ->] [m ->]. exists (k - m)%Z. rewrite minus_IZR. ring. Qed.
Lemma mult_pi_plus : forall x y, multiple_of_pi x -> multiple_of_pi y -> multiple_of_pi (x + y).
Proof. intros x y [k ->] [m ->]. exists (k + m)%Z. rewrite plus_IZR. ring. Qed.
Lemma mult_pi_opp : forall x, multiple_of_pi x -> multiple_of_pi (- x).
Proof. intros x [k ->]. exists (- k)%Z. rewrite opp_IZR. ring. Qed.

(** a continuous function with values in pi Z is constant *)
Lemma discrete_const : forall (f : R -> R) p q, (forall x, continuous f x) -> (forall x, p <= x <= q -> multiple_of_pi (f x)) ->
  forall x, p <= x <= q -> f x = f p.
Proof.
  intros f p q Cf Hf x Hx. pose proof PIpos as HP. assert (p <= q) by lra.
  destruct (Hf x Hx) as [k Ek]. destruct (Hf p ltac:(lra)) as [m Em].
  destruct (Z.eq_dec k m) as [->|Hne]; [lra|exfalso].
  set (y := IZR (Z.min k m) * PI + PI / 2).
  destruct (IVT_gen f p x y) as (t & Ht & Et).
  - intro t. apply continuity_pt_filterlim, Cf.
  - rewrite Em, Ek. unfold y. destruct (Z.lt_total k m) as [L|[L|L]]; [|congruence|].
    + rewrite Z.min_l by lia. assert (IZR k + 1 <= IZR m) by (rewrite <- plus_IZR; apply IZR_le; lia).
      rewrite Rmin_right, Rmax_left by nra. nra.
    + rewrite Z.min_r by lia. assert (IZR m + 1 <= IZR k) by (rewrite <- plus_IZR; apply IZR_le; lia).
      rewrite Rmin_left, Rmax_right by nra. nra.
  - rewrite Rmin_left, Rmax_right in Ht by lra. destruct (Hf t ltac:(lra)) as [j Ej]. rewrite Ej in Et. unfold y in Et.
    assert (IZR (2 * j) = IZR (2 * Z.min k m + 1)) as E2.
    { rewrite plus_IZR, !mult_IZR. apply (Rmult_eq_reg_r PI); lra. }
    apply eq_IZR in E2. lia.
Qed.

Lemma lift_unique : forall u v p q phi psi, (forall x, p <= x <= q -> u x <> 0 \/ v x <> 0) -> lift u v p q phi -> lift u v p q psi ->
  forall x, p <= x <= q -> phi x - phi p = psi x - psi p.
Proof.
  intros u v p q phi psi Hn [C1 A1] [C2 A2] x Hx.
  pose proof (discrete_const (fun x => phi x - psi x) p q) as H. cbv beta in H.
  specialize (H ltac:(intro t; apply (continuous_minus phi psi); auto) ltac:(intros t Ht; apply (angles_pi (u t) (v t)); auto) x Hx). lra.
Qed.
Lemma lift_sub : forall u v p q phi p' q', lift u v p q phi -> p <= p' -> q' <= q -> lift u v p' q' phi.
Proof. intros u v p q phi p' q' [C A] H1 H2. split; [exact C|]. intros x Hx. apply A. lra. Qed.
Lemma lift_shift : forall u v p q phi k, lift u v p q phi -> lift u v p q (fun x => phi x + IZR k * PI).
Proof.
  intros u v p q phi k [C A]. split; [intro x; apply (continuous_plus phi (fun _ => IZR k * PI)); [apply C|apply continuous_const]|].
  intros x Hx. destruct (sincos_shift (phi x) k) as [e [He [-> ->]]]. specialize (A x Hx). transitivity (e * (u x * cos (phi x))); [ring|]. rewrite A. ring.
Qed.

(** ---- derivative *)
Lemma lift_derive : forall u v p q phi x u' v', lift u v p q phi -> p < x < q -> u x <> 0 \/ v x <> 0 ->
  is_derive u x u' -> is_derive v x v' -> is_derive phi x ((u' * v x - v' * u x) / (u x * u x + v x * v x)).
Proof.
  intros u v p q phi x u' v' [Cphi Aphi] Hx Hn Du Dv. pose proof PIpos as HP.
  assert (0 < u x * u x + v x * v x) as Hr by (destruct Hn; nra).
  set (T := fun t => turn (u x) (v x) (u t) (v t)).
  assert (continuous u x) as Cu by (apply (ex_derive_continuous u); eexists; exact Du).
  assert (continuous v x) as Cv by (apply (ex_derive_continuous v); eexists; exact Dv).
  assert (continuous (fun t => u t * u x + v t * v x) x) as Cd.
  { apply (continuous_plus (fun t => u t * u x) (fun t => v t * v x)); [apply (continuous_mult u (fun _ => u x))|apply (continuous_mult v (fun _ => v x))]; auto; apply continuous_const. }
  assert (is_derive T x ((u' * v x - v' * u x) / (u x * u x + v x * v x))) as DT.
  { unfold T, turn. auto_derive.
    - repeat split; try (eexists; eassumption). lra.
    - change (Derive (fun x => u x) x) with (Derive u x). change (Derive (fun x => v x) x) with (Derive v x).
      rewrite (is_derive_unique _ _ _ Du), (is_derive_unique _ _ _ Dv).
      replace (u x * v x + - (v x * u x)) with 0 by ring. field. nra. }
  assert (continuous T x) as CT by (apply (ex_derive_continuous T); eexists; exact DT).
  apply (is_derive_ext_loc (fun t => phi x + T t)).
  - assert (locally x (fun t => 0 < u t * u x + v t * v x)) as L1.
    { apply (Cd (fun z => 0 < z)). exists (mkposreal _ Hr). intros z Hz. unfold ball in Hz; simpl in Hz; unfold AbsRing_ball in Hz; simpl in Hz. unfold abs, minus, plus, opp in Hz; simpl in Hz. apply Rabs_def2 in Hz. lra. }
    assert (T x = 0) as T0 by (unfold T; apply turn_self).
    assert (locally x (fun t => Rabs (T t) < PI / 2)) as L2.
    { apply (CT (fun z => Rabs z < PI / 2)). assert (0 < PI / 2) as Hp2 by lra. exists (mkposreal _ Hp2). intros z Hz. unfold ball in Hz; simpl in Hz; unfold AbsRing_ball in Hz; simpl in Hz. unfold abs, minus, plus, opp in Hz; simpl in Hz.
      rewrite T0 in Hz. rewrite <- (Rminus_0_r z). exact Hz. }
    assert (locally x (fun t => Rabs (phi t - phi x) < PI / 2)) as L3.
    { apply (Cphi x (fun z => Rabs (z - phi x) < PI / 2)). assert (0 < PI / 2) as Hp2 by lra. exists (mkposreal _ Hp2). intros z Hz. exact Hz. }
    assert (locally x (fun t => p < t < q)) as L4.
    { assert (0 < Rmin (x - p) (q - x)) as He by (apply Rmin_glb_lt; lra). exists (mkposreal _ He). intros t Ht. unfold ball in Ht; simpl in Ht; unfold AbsRing_ball in Ht; simpl in Ht. unfold abs, minus, plus, opp in Ht; simpl in Ht. apply Rabs_def2 in Ht.
      pose proof (Rmin_l (x - p) (q - x)). pose proof (Rmin_r (x - p) (q - x)). lra. }
    generalize (filter_and _ _ (filter_and _ _ L1 L2) (filter_and _ _ L3 L4)). apply filter_imp. intros t [[H1 H2] [H3 H4]].
    assert (phi t - (phi x + T t) = 0) as E0; [|lra]. apply mult_pi_small.
    + apply (angles_pi (u t) (v t)); [destruct (Req_dec (u t) 0) as [E1|]; [|left; assumption]; destruct (Req_dec (v t) 0) as [E2|]; [rewrite E1, E2 in H1; lra|right; assumption]| |].
      * apply Aphi. lra.
      * apply turn_angle; [exact H1|]. apply Aphi. lra.
    + apply Rabs_def2 in H2, H3. lra.
  - evar_last; [apply (is_derive_plus (fun _ => phi x) T); [apply is_derive_const|exact DT]|]. unfold plus, zero; simpl. ring.
Qed.
