(** Continuous angles of nonvanishing plane curves: existence, uniqueness. *)
From Coq Require Import Reals ZArith Lra Lia.
From Coquelicot Require Import Coquelicot.
From Coq Require Import List.
From Verif Require Import Base M_Sectors M_Core S_Core P_Prufer S_Formulas P_Terms2 S_Zeros.
Import ListNotations.
Open Scope R_scope.

Definition clamp (p q x : R) : R := Rmax p (Rmin x q).
Lemma clamp_in : forall p q x, p <= q -> p <= clamp p q x <= q.
Proof. intros. unfold clamp, Rmax, Rmin. destruct (Rle_dec x q), (Rle_dec p _); lra. Qed.
Lemma clamp_id : forall p q x, p <= x <= q -> clamp p q x = x.
Proof. intros. unfold clamp, Rmax, Rmin. destruct (Rle_dec x q), (Rle_dec p _); lra. Qed.
Lemma clamp_low : forall p q x, p <= q -> x <= p -> clamp p q x = p.
Proof. intros. unfold clamp, Rmax, Rmin. destruct (Rle_dec x q), (Rle_dec p _); lra. Qed.
Lemma clamp_high : forall p q x, p <= q -> q <= x -> clamp p q x = q.
Proof. intros. unfold clamp, Rmax, Rmin. destruct (Rle_dec x q), (Rle_dec p _); lra. Qed.
Lemma lipschitz_continuous : forall f : R -> R, (forall x y, Rabs (f y - f x) <= Rabs (y - x)) -> forall x, continuous f x.
Proof.
  intros f Hf x. apply continuity_pt_filterlim. intros eps He. exists eps. split; [exact He|]. intros y [_ Hy]. simpl in *. unfold R_dist in *.
  eapply Rle_lt_trans; [apply Hf|exact Hy].
Qed.
Lemma clamp_continuous : forall p q x, p <= q -> continuous (clamp p q) x.
Proof.
  intros p q x Hpq. apply lipschitz_continuous. intros a b. unfold clamp, Rmax, Rmin.
  destruct (Rle_dec b q), (Rle_dec a q); repeat destruct (Rle_dec p _); unfold Rabs; repeat destruct (Rcase_abs _); lra.
Qed.
Lemma clamp_comp_continuous : forall (f : R -> R) p q, p <= q -> (forall x, p <= x <= q -> continuous f x) -> forall x, continuous (fun x => f (clamp p q x)) x.
Proof.
  intros f p q Hpq Hf x. apply (continuous_comp (clamp p q) f); [apply clamp_continuous, Hpq|]. apply Hf, clamp_in, Hpq.
Qed.

(** ---- a nonzero vector: rotating an angle *)
Definition turn (us vs ut vt : R) : R := atan ((ut * vs - vt * us) / (ut * us + vt * vs)).
Lemma turn_angle : forall us vs ut vt th, 0 < ut * us + vt * vs -> us * cos th = vs * sin th ->
  ut * cos (th + turn us vs ut vt) = vt * sin (th + turn us vs ut vt).
Proof.
  intros us vs ut vt th Hd Ha. unfold turn. set (D := ut * us + vt * vs) in *. set (C := ut * vs - vt * us). set (f := C / D).
  rewrite cos_plus, sin_plus, (sin_atan f). set (c := cos (atan f)).
  assert (f * D = C) as Hf by (unfold f; field; lra).
  apply (Rmult_eq_reg_r D); [|lra].
  replace (ut * (cos th * c - sin th * (f * c)) * D) with (c * ut * (cos th * D - sin th * (f * D))) by ring.
  replace (vt * (sin th * c + cos th * (f * c)) * D) with (c * vt * (sin th * D + cos th * (f * D))) by ring. rewrite Hf. unfold C, D.
  (* both sides are c times a combination of us cos = vs sin *)
  replace (c * ut * (cos th * (ut * us + vt * vs) - sin th * (ut * vs - vt * us)))
    with (c * ut * (ut * (us * cos th - vs * sin th) + vt * (vs * cos th + us * sin th))) by ring.
  replace (c * vt * (sin th * (ut * us + vt * vs) + cos th * (ut * vs - vt * us)))
    with (c * vt * (ut * (us * sin th + vs * cos th) + vt * (vs * sin th - us * cos th))) by ring.
  rewrite Ha. ring.
Qed.
Lemma turn_self : forall u v, turn u v u v = 0.
Proof. intros. unfold turn. replace (u * v - v * u) with 0 by ring. unfold Rdiv. rewrite Rmult_0_l. apply atan_0. Qed.

(** ---- existence *)
Section Exists.
Variables u v : R -> R.
Variables p q : R.
Hypothesis Hpq : p <= q.
Hypothesis Cu : forall x, continuous u x.
Hypothesis Cv : forall x, continuous v x.
Hypothesis Hnz : forall x, p <= x <= q -> u x <> 0 \/ v x <> 0.

Lemma dot_close : exists d, 0 < d /\ forall x y, p <= x <= q -> p <= y <= q -> Rabs (x - y) < d -> 0 < u y * u x + v y * v x.
Proof.
  assert (forall x, continuity_pt (fun x => u x * u x + v x * v x) x) as Cr.
  { intro x. apply continuity_pt_filterlim. apply (continuous_plus (fun x => u x * u x) (fun x => v x * v x)); [apply (continuous_mult u u)|apply (continuous_mult v v)]; auto. }
  destruct (continuity_ab_min (fun x => u x * u x + v x * v x) p q Hpq ltac:(auto)) as (m & Hm & Hin). cbv beta in Hm.
  set (r := u m * u m + v m * v m) in *.
  assert (0 < r) as Hr.
  { unfold r. destruct (Hnz m Hin) as [H|H]; [assert (0 < u m * u m) by nra; assert (0 <= v m * v m) by nra|assert (0 < v m * v m) by nra; assert (0 <= u m * u m) by nra]; lra. }
  set (e := sqrt r / 2). assert (0 < sqrt r) as Hs by (apply sqrt_lt_R0, Hr). assert (0 < e) as He by (unfold e; lra).
  destruct (@Heine_cor2 u p q ltac:(intros; apply continuity_pt_filterlim; apply Cu) (mkposreal e He)) as [d1 H1].
  destruct (@Heine_cor2 v p q ltac:(intros; apply continuity_pt_filterlim; apply Cv) (mkposreal e He)) as [d2 H2]. simpl in H1, H2.
  exists (Rmin d1 d2). split; [apply Rmin_glb_lt; [apply d1|apply d2]|]. intros x y Hx Hy Hd.
  specialize (H1 x y Hx Hy ltac:(eapply Rlt_le_trans; [exact Hd|apply Rmin_l])).
  specialize (H2 x y Hx Hy ltac:(eapply Rlt_le_trans; [exact Hd|apply Rmin_r])).
  pose proof (Hm x Hx) as Mx. pose proof (Hm y Hy) as My.
  assert ((u x - u y) * (u x - u y) < e * e) as Q1.
  { apply Rabs_def2 in H1. nra. }
  assert ((v x - v y) * (v x - v y) < e * e) as Q2.
  { apply Rabs_def2 in H2. nra. }
  assert (e * e = r / 4) as Ee by (unfold e; replace (sqrt r / 2 * (sqrt r / 2)) with (sqrt r * sqrt r / 4) by field; rewrite sqrt_sqrt by lra; reflexivity).
  replace (u y * u x + v y * v x) with (((u x * u x + v x * v x) + (u y * u y + v y * v y) - ((u x - u y) * (u x - u y) + (v x - v y) * (v x - v y))) / 2) by field. lra.
Qed.

Theorem lift_exists : forall th, u p * cos th = v p * sin th -> exists phi, lift u v p q phi /\ phi p = th.
Proof.
  intros th Hth. destruct dot_close as (d & Hd & Hdot).
  set (n := S (Z.to_nat (up ((q - p) / d)))). set (g := (q - p) / INR n).
  assert (0 < INR n) as Hn by (apply lt_0_INR; unfold n; lia).
  assert (0 <= g) as Hg by (unfold g; apply Rmult_le_pos; [lra|left; apply Rinv_0_lt_compat, Hn]).
  assert (g < d) as Hgd.
  { unfold g. apply (Rmult_lt_reg_r (INR n)); [exact Hn|]. replace ((q - p) / INR n * INR n) with (q - p) by (field; lra).
    assert ((q - p) / d < INR n) as H.
    { unfold n. rewrite S_INR. destruct (archimed ((q - p) / d)) as [H1 _].
      assert (0 <= (q - p) / d) by (apply Rmult_le_pos; [lra|left; apply Rinv_0_lt_compat, Hd]).
      assert (0 < up ((q - p) / d))%Z by (apply lt_IZR; lra).
      rewrite INR_IZR_INZ, Z2Nat.id by lia. lra. }
    apply (Rmult_lt_compat_r d) in H; [|exact Hd]. replace ((q - p) / d * d) with (q - p) in H by (field; lra). lra. }
  set (X := fun i => p + INR i * g).
  assert (forall i, X (S i) = X i + g) as XS by (intro i; unfold X; rewrite S_INR; ring).
  assert (X n = q) as Xn by (unfold X, g; field; lra).
  assert (X 0%nat = p) as X0 by (unfold X; simpl; ring).
  assert (forall i, (i <= n)%nat -> p <= X i <= q) as Xin.
  { intros i Hi. unfold X. assert (0 <= INR i) by apply pos_INR. assert (INR i <= INR n) by (apply le_INR, Hi).
    assert (INR i * g <= INR n * g) by (apply Rmult_le_compat_r; assumption). assert (0 <= INR i * g) by (apply Rmult_le_pos; assumption).
    replace q with (p + INR n * g) by (rewrite <- Xn; reflexivity). lra. }
  set (A := fun i x => turn (u (X i)) (v (X i)) (u (clamp (X i) (X (S i)) x)) (v (clamp (X i) (X (S i)) x))).
  set (phi := fun x => th + rsum n (fun i => A i x)).
  assert (forall i, X i <= X (S i)) as XX by (intro; rewrite XS; lra).
  assert (forall i x, (i < n)%nat -> continuous (A i) x) as CA.
  { intros i x Hi. unfold A, turn. set (c := clamp (X i) (X (S i))).
    assert (forall f : R -> R, (forall x, continuous f x) -> continuous (fun x => f (c x)) x) as Cc by (intros f Hf; apply (continuous_comp c f); [apply clamp_continuous, XX|apply Hf]).
    pose proof (Cc u Cu) as C1. pose proof (Cc v Cv) as C2.
    assert (forall (f : R -> R) k, continuous f x -> continuous (fun x => f x * k) x) as Ck.
    { intros f k Hf. apply (continuous_mult f (fun _ => k)); [exact Hf|apply continuous_const]. }
    apply (continuous_atan_comp (fun x => (u (c x) * v (X i) - v (c x) * u (X i)) / (u (c x) * u (X i) + v (c x) * v (X i)))).
    unfold Rdiv.
    apply (continuous_mult (fun x => u (c x) * v (X i) - v (c x) * u (X i)) (fun x => / (u (c x) * u (X i) + v (c x) * v (X i)))).
    - apply (continuous_minus (fun x => u (c x) * v (X i)) (fun x => v (c x) * u (X i))); apply Ck; assumption.
    - apply continuous_Rinv_comp; [apply (continuous_plus (fun x => u (c x) * u (X i)) (fun x => v (c x) * v (X i))); apply Ck; assumption|].
      assert (p <= c x <= q) as Hcx.
      { pose proof (clamp_in (X i) (X (S i)) x (XX i)). pose proof (Xin i ltac:(lia)). pose proof (Xin (S i) ltac:(lia)). unfold c. lra. }
      assert (0 < u (c x) * u (X i) + v (c x) * v (X i)); [|lra]. apply Hdot; [apply Xin; lia|exact Hcx|].
      pose proof (clamp_in (X i) (X (S i)) x (XX i)) as Hc. rewrite XS in Hc. fold (c x) in Hc. apply Rabs_def1; unfold c; rewrite ?XS; lra. }
  exists phi. split; [split|].
  - intro x. unfold phi. apply (continuous_plus (fun _ => th) (fun x => rsum n (fun i => A i x))); [apply continuous_const|].
    assert (forall m, (m <= n)%nat -> continuous (fun x => rsum m (fun i => A i x)) x) as H.
    { induction m; intro Hm; cbn [rsum]; [apply continuous_const|]. apply (continuous_plus (fun x => rsum m (fun i => A i x)) (A m)); [apply IHm; lia|apply CA; lia]. }
    apply H. lia.
  - (* partial sums are angles of the clamped curve *)
    assert (forall m x, (m <= n)%nat -> p <= x <= q -> let y := clamp p (X m) x in u y * cos (th + rsum m (fun i => A i x)) = v y * sin (th + rsum m (fun i => A i x))) as H.
    { induction m; intros x Hm Hx y.
      - unfold y. rewrite X0, clamp_high by lra. cbn [rsum]. rewrite Rplus_0_r. exact Hth.
      - cbn [rsum]. specialize (IHm x ltac:(lia) Hx). cbv zeta in IHm. pose proof (Xin m ltac:(lia)) as Hxm. pose proof (Xin (S m) ltac:(lia)) as HxS.
        pose proof (XX m) as Hmm. destruct (Rle_lt_dec x (X m)) as [Hl|Hl].
        + assert (A m x = 0) as ->.
          { unfold A. rewrite (clamp_low (X m) (X (S m)) x) by lra. apply turn_self. }
          rewrite Rplus_0_r. unfold y. rewrite clamp_id by lra. rewrite (clamp_id p (X m) x) in IHm by lra. exact IHm.
        + rewrite (clamp_high p (X m) x) in IHm by lra. rewrite <- Rplus_assoc. unfold A.
          assert (clamp (X m) (X (S m)) x = y) as ->.
          { unfold y. destruct (Rle_lt_dec x (X (S m))); [rewrite !clamp_id by lra; reflexivity|rewrite !clamp_high by lra; reflexivity]. }
          apply turn_angle; [|exact IHm]. assert (p <= y <= q) as Hy by (pose proof (clamp_in p (X (S m)) x ltac:(lra)); unfold y; lra).
          apply Hdot; [lra|exact Hy|].
          assert (X m <= y <= X (S m)) as Hy2.
          { unfold y. destruct (Rle_lt_dec x (X (S m))); [rewrite clamp_id by lra; lra|rewrite clamp_high by lra; lra]. }
          rewrite XS in Hy2. apply Rabs_def1; lra. }
    intros x Hx. specialize (H n x (Nat.le_refl n) Hx). cbv zeta in H. rewrite Xn, clamp_id in H by lra. exact H.
  - unfold phi. assert (forall m, (m <= n)%nat -> rsum m (fun i => A i p) = 0) as H.
    { induction m; intro Hm; cbn [rsum]; [reflexivity|]. rewrite IHm by lia. unfold A. pose proof (Xin m ltac:(lia)). pose proof (XX m).
      rewrite clamp_low by lra. rewrite turn_self. ring. }
    rewrite H by lia. ring.
Qed.
End Exists.
