(** A perturbation bound for y'' = Q y (Gronwall). *)
From Coq Require Import Reals Lra Lia.
From Coquelicot Require Import Coquelicot.
Open Scope R_scope.

Lemma mvt_bound : forall (f g : R -> R) b M, 0 <= b ->
  (forall x, 0 <= x <= b -> is_derive f x (g x)) -> (forall x, 0 <= x <= b -> Rabs (g x) <= M) ->
  f 0 = 0 -> forall x, 0 <= x <= b -> Rabs (f x) <= x * M.
Proof.
  intros f g b M Hb Hd Hg H0 x Hx.
  destruct (Req_dec x 0) as [->|Hne]; [rewrite H0, Rabs_R0; lra|].
  destruct (MVT_gen f 0 x g) as (c & Hc & E).
  - intros t Ht. rewrite Rmin_left, Rmax_right in Ht by lra. apply Hd. lra.
  - intros t Ht. rewrite Rmin_left, Rmax_right in Ht by lra. apply continuity_pt_filterlim.
    apply (ex_derive_continuous f). exists (g t). apply Hd. lra.
  - rewrite Rmin_left, Rmax_right in Hc by lra. rewrite H0 in E. replace (f x) with (g c * x) by lra.
    rewrite Rabs_mult, (Rabs_pos_eq x) by lra. rewrite Rmult_comm. apply Rmult_le_compat_l; [lra|]. apply Hg. lra.
Qed.

Lemma decreasing_on : forall (f g : R -> R) b, 0 <= b ->
  (forall x, 0 <= x <= b -> is_derive f x (g x)) -> (forall x, 0 <= x <= b -> g x <= 0) ->
  forall x, 0 <= x <= b -> f x <= f 0.
Proof.
  intros f g b Hb Hd Hg x Hx.
  destruct (Req_dec x 0) as [->|Hne]; [lra|].
  destruct (MVT_gen f 0 x g) as (c & Hc & E).
  - intros t Ht. rewrite Rmin_left, Rmax_right in Ht by lra. apply Hd. lra.
  - intros t Ht. rewrite Rmin_left, Rmax_right in Ht by lra. apply continuity_pt_filterlim.
    apply (ex_derive_continuous f). exists (g t). apply Hd. lra.
  - rewrite Rmin_left, Rmax_right in Hc by lra. assert (g c <= 0) by (apply Hg; lra). nra.
Qed.

(** e'' = Q e + r, e(0) = e'(0) = 0 on [0,b], b <= 1, |Q| <= M, |r| <= P *)
Lemma gronwall : forall (e e1 e2 Q : R -> R) b M P, 0 <= b <= 1 -> 0 <= M -> 0 <= P ->
  (forall x, 0 <= x <= b -> is_derive e x (e1 x)) ->
  (forall x, 0 <= x <= b -> is_derive e1 x (e2 x)) ->
  (forall x, 0 <= x <= b -> Rabs (Q x) <= M) ->
  (forall x, 0 <= x <= b -> Rabs (e2 x - Q x * e x) <= P) ->
  e 0 = 0 -> e1 0 = 0 ->
  forall x, 0 <= x <= b ->
    Rabs (e1 x) <= b * ((M * exp (M + 2) + 1) * P) /\ Rabs (e x) <= b * (b * ((M * exp (M + 2) + 1) * P)).
Proof.
  intros e e1 e2 Q b M P Hb HM HP D1 D2 HQ HR H0 H1.
  set (c := M + 2).
  assert (forall x, 0 <= x <= b -> e x * e x + e1 x * e1 x <= P * P * exp c) as HS.
  { intros x Hx.
    pose (G x := (e x * e x + e1 x * e1 x + P * P) * exp (- c * x)).
    pose (G' x := (2 * e x * e1 x + 2 * e1 x * e2 x) * exp (- c * x) + (e x * e x + e1 x * e1 x + P * P) * (- c * exp (- c * x))).
    assert (G x <= G 0) as HG.
    { apply (decreasing_on G G' b); [lra| | |exact Hx].
      - intros t Ht. unfold G, G'. pose proof (D1 t Ht) as A. pose proof (D2 t Ht) as B.
        auto_derive.
        + repeat split; try (exists (e1 t); exact A); try (exists (e2 t); exact B); auto.
        + change (Derive (fun x => e x) t) with (Derive e t). change (Derive (fun x => e1 x) t) with (Derive e1 t).
          rewrite (is_derive_unique _ _ _ A), (is_derive_unique _ _ _ B). ring.
      - intros t Ht. unfold G'. pose proof (exp_pos (- c * t)) as Ep.
        assert (2 * e t * e1 t + 2 * e1 t * e2 t - c * (e t * e t + e1 t * e1 t + P * P) <= 0) as Hk; [|nra].
        specialize (HQ t Ht). specialize (HR t Ht). set (r := e2 t - Q t * e t) in *. 
        replace (e2 t) with (Q t * e t + r) by (unfold r; ring).
        set (q := Q t) in *. set (x0 := e t). set (x1 := e1 t).
        assert (2 * x1 * (q * x0) <= M * (x0 * x0 + x1 * x1)) as I1.
        { apply Rabs_le_between in HQ.
          assert (0 <= (x0 + x1) * (x0 + x1)) by apply Rle_0_sqr. assert (0 <= (x0 - x1) * (x0 - x1)) by apply Rle_0_sqr.
          assert (0 <= (M - q) * ((x0 + x1) * (x0 + x1))) by (apply Rmult_le_pos; lra).
          assert (0 <= (M + q) * ((x0 - x1) * (x0 - x1))) by (apply Rmult_le_pos; lra). lra. }
        assert (2 * x1 * r <= x1 * x1 + P * P) as I2.
        { assert (0 <= (x1 - r) * (x1 - r)) by apply Rle_0_sqr.
          assert (r * r <= P * P).
          { apply Rabs_le_between in HR. nra. } lra. }
        assert (2 * x0 * x1 <= x0 * x0 + x1 * x1) as I3.
        { assert (0 <= (x0 - x1) * (x0 - x1)) by apply Rle_0_sqr. lra. }
        assert (0 <= x0 * x0) by apply Rle_0_sqr. assert (0 <= x1 * x1) by apply Rle_0_sqr. assert (0 <= P * P) by apply Rle_0_sqr.
        assert (0 <= M * (P * P)) by (apply Rmult_le_pos; assumption).
        unfold c. replace (2 * x1 * (q * x0 + r)) with (2 * x1 * (q * x0) + 2 * x1 * r) by ring.
        replace ((M + 2) * (x0 * x0 + x1 * x1 + P * P)) with (M * (x0 * x0 + x1 * x1) + M * (P * P) + 2 * (x0 * x0 + x1 * x1 + P * P)) by ring.
        lra. }
    unfold G in HG. rewrite H0, H1 in HG. replace (- c * 0) with 0 in HG by ring. rewrite exp_0 in HG.
    assert (exp (- c * x) * exp (c * x) = 1) as Ee by (rewrite <- exp_plus; replace (- c * x + c * x) with 0 by ring; apply exp_0).
    assert (exp (c * x) <= exp c) as Ec.
    { destruct (Req_dec x 1) as [->|Hne]; [rewrite Rmult_1_r; lra|]. left. apply exp_increasing. unfold c. nra. }
    pose proof (exp_pos (c * x)) as Ep.
    assert (e x * e x + e1 x * e1 x + P * P <= P * P * exp (c * x)) as Hf.
    { apply (Rmult_le_compat_r (exp (c * x))) in HG; [|lra].
      rewrite Rmult_assoc, Ee in HG. lra. }
    assert (0 <= P * P) by apply Rle_0_sqr.
    assert (P * P * exp (c * x) <= P * P * exp c) by (apply Rmult_le_compat_l; lra). lra. }
  assert (1 <= exp c) as Hc1 by (rewrite <- exp_0; left; apply exp_increasing; unfold c; lra).
  assert (forall x, 0 <= x <= b -> Rabs (e x) <= P * exp c) as He.
  { intros x Hx. specialize (HS x Hx). apply Rsqr_incr_0_var; [|apply Rmult_le_pos; [lra|lra]].
    rewrite <- Rsqr_abs. unfold Rsqr. assert (0 <= e1 x * e1 x) by apply Rle_0_sqr.
    assert (0 <= P * P) by apply Rle_0_sqr.
    assert (P * P * exp c <= P * P * (exp c * exp c)) by (apply Rmult_le_compat_l; [lra|]; nra).
    replace (P * exp c * (P * exp c)) with (P * P * (exp c * exp c)) by ring. lra. }
  set (K := (M * exp c + 1) * P).
  assert (forall x, 0 <= x <= b -> Rabs (e2 x) <= K) as H2.
  { intros x Hx. replace (e2 x) with ((e2 x - Q x * e x) + Q x * e x) by ring.
    eapply Rle_trans; [apply Rabs_triang|]. rewrite Rabs_mult. specialize (HR x Hx). specialize (HQ x Hx). specialize (He x Hx).
    assert (Rabs (Q x) * Rabs (e x) <= M * (P * exp c)) by (apply Rmult_le_compat; try apply Rabs_pos; assumption).
    unfold K. lra. }
  assert (0 <= K) as HK by (unfold K; apply Rmult_le_pos; [|lra]; assert (0 <= M * exp c) by (apply Rmult_le_pos; lra); lra).
  assert (forall x, 0 <= x <= b -> Rabs (e1 x) <= b * K) as H3.
  { intros x Hx. eapply Rle_trans; [apply (mvt_bound e1 e2 b K); auto; lra|]. apply Rmult_le_compat_r; lra. }
  intros x Hx. split; [apply H3, Hx|].
  eapply Rle_trans; [apply (mvt_bound e e1 b (b * K)); auto; lra|]. apply Rmult_le_compat_r; [apply Rmult_le_pos; lra|lra].
Qed.
