(** One sector against a solution of the true equation: exact fundamental matrices, Gronwall on the open interval. *)
From Coq Require Import String Reals ZArith Lra Lia.
From Coquelicot Require Import Coquelicot.
From Coq Require Import List Bool.
From Verif Require Import Base S_Eta P_Eta M_Eta P_Eta2 S_Poly S_Legendre S_Formulas M_Sectors M_TableData M_Core S_Core M_Formulas
  P_Terms P_Terms2 P_Formulas P_Formulas2 P_Formulas3 P_Formulas4 P_Gronwall P_Accuracy P_Formulas5 P_Accuracy2 P_Accuracy3 P_Accuracy4 P_Exist.
Import ListNotations.
Open Scope R_scope.

(** ---- Gronwall with derivatives on the open interval only *)
Lemma mvt_open : forall (f g : R -> R) b, (forall x, 0 < x < b -> is_derive f x (g x)) -> (forall x, 0 <= x <= b -> continuous f x) ->
  forall x, 0 < x <= b -> exists d, (d = 0 \/ exists c, 0 < c < b /\ d = g c) /\ f x - f 0 = d * x.
Proof.
  intros f g b Hd Hc x Hx.
  pose (gt := fun t => if Rlt_dec 0 t then if Rlt_dec t b then g t else 0 else 0).
  destruct (MVT_gen f 0 x gt) as (c & C1 & C2).
  - intros t Ht. rewrite Rmin_left, Rmax_right in Ht by lra. unfold gt. destruct (Rlt_dec 0 t); [|lra]. destruct (Rlt_dec t b); [|lra].
    apply Hd. lra.
  - intros t Ht. rewrite Rmin_left, Rmax_right in Ht by lra. apply continuity_pt_filterlim, Hc. lra.
  - exists (gt c). split; [|lra]. unfold gt. destruct (Rlt_dec 0 c); [|auto]. destruct (Rlt_dec c b); [|auto]. right. exists c. auto.
Qed.
Lemma mvt_bound_open : forall (f g : R -> R) b M, 0 <= b -> 0 <= M ->
  (forall x, 0 < x < b -> is_derive f x (g x)) -> (forall x, 0 <= x <= b -> continuous f x) -> (forall x, 0 < x < b -> Rabs (g x) <= M) ->
  forall x, 0 <= x <= b -> Rabs (f x - f 0) <= x * M.
Proof.
  intros f g b M Hb HM Hd Hc Hg x Hx.
  destruct (Req_dec x 0) as [->|Hne]; [rewrite Rminus_eq_0, Rabs_R0; lra|].
  destruct (mvt_open f g b Hd Hc x ltac:(lra)) as (d & Hdd & E). rewrite E, Rabs_mult, (Rabs_pos_eq x), Rmult_comm by lra.
  apply Rmult_le_compat_l; [lra|]. destruct Hdd as [->|(c & Hcc & ->)]; [rewrite Rabs_R0; lra|apply Hg, Hcc].
Qed.
Lemma decreasing_open : forall (f g : R -> R) b, 0 <= b ->
  (forall x, 0 < x < b -> is_derive f x (g x)) -> (forall x, 0 <= x <= b -> continuous f x) -> (forall x, 0 < x < b -> g x <= 0) ->
  forall x, 0 <= x <= b -> f x <= f 0.
Proof.
  intros f g b Hb Hd Hc Hg x Hx.
  destruct (Req_dec x 0) as [->|Hne]; [lra|].
  destruct (mvt_open f g b Hd Hc x ltac:(lra)) as (d & Hdd & E).
  assert (d <= 0) by (destruct Hdd as [->|(c & Hcc & ->)]; [lra|apply Hg, Hcc]). nra.
Qed.

Lemma gronwall_open : forall (e e1 e2 Q : R -> R) b M P, 0 <= b <= 1 -> 0 <= M -> 0 <= P ->
  (forall x, 0 < x < b -> is_derive e x (e1 x)) ->
  (forall x, 0 < x < b -> is_derive e1 x (e2 x)) ->
  (forall x, 0 <= x <= b -> continuous e x) -> (forall x, 0 <= x <= b -> continuous e1 x) ->
  (forall x, 0 < x < b -> Rabs (Q x) <= M) ->
  (forall x, 0 < x < b -> Rabs (e2 x - Q x * e x) <= P) ->
  e 0 = 0 -> e1 0 = 0 ->
  forall x, 0 <= x <= b ->
    Rabs (e1 x) <= b * ((M * exp (M + 2) + 1) * P) /\ Rabs (e x) <= b * (b * ((M * exp (M + 2) + 1) * P)).
Proof.
  intros e e1 e2 Q b M P Hb HM HP D1 D2 C1 C2 HQ HR H0 H1.
  set (c := M + 2).
  assert (forall x, 0 <= x <= b -> e x * e x + e1 x * e1 x <= P * P * exp c) as HS.
  { intros x Hx.
    pose (G x := (e x * e x + e1 x * e1 x + P * P) * exp (- c * x)).
    pose (G' x := (2 * e x * e1 x + 2 * e1 x * e2 x) * exp (- c * x) + (e x * e x + e1 x * e1 x + P * P) * (- c * exp (- c * x))).
    assert (G x <= G 0) as HG.
    { apply (decreasing_open G G' b); [lra| | | |exact Hx].
      - intros t Ht. unfold G, G'. pose proof (D1 t Ht) as A. pose proof (D2 t Ht) as B.
        auto_derive.
        + repeat split; try (exists (e1 t); exact A); try (exists (e2 t); exact B); auto.
        + change (Derive (fun x => e x) t) with (Derive e t). change (Derive (fun x => e1 x) t) with (Derive e1 t).
          rewrite (is_derive_unique _ _ _ A), (is_derive_unique _ _ _ B). ring.
      - intros t Ht. unfold G. pose proof (C1 t Ht) as A. pose proof (C2 t Ht) as B.
        apply (continuous_mult (fun x => e x * e x + e1 x * e1 x + P * P) (fun x => exp (- c * x))).
        + apply (continuous_plus (fun x => e x * e x + e1 x * e1 x) (fun _ => P * P)); [|apply continuous_const].
          apply (continuous_plus (fun x => e x * e x) (fun x => e1 x * e1 x)).
          * apply (continuous_mult e e); assumption.
          * apply (continuous_mult e1 e1); assumption.
        + apply (ex_derive_continuous (fun x => exp (- c * x))). auto_derive. exact I.
      - intros t Ht. unfold G'. pose proof (exp_pos (- c * t)) as Ep.
        assert (2 * e t * e1 t + 2 * e1 t * e2 t - c * (e t * e t + e1 t * e1 t + P * P) <= 0) as Hk; [|nra].
        specialize (HQ t Ht). specialize (HR t Ht). set (r := e2 t - Q t * e t) in *.
        replace (e2 t) with (Q t * e t + r) by (unfold r; ring).
        set (q := Q t) in *. set (x0 := e t). set (x1 := e1 t).
        assert (2 * x1 * (q * x0) <= M * (x0 * x0 + x1 * x1)) as I1.
        { apply Rabs_le_between in HQ.
          assert (0 <= (x0 + x1) * (x0 + x1)) by apply Rle_0_sqr. assert (0 <= (x0 - x1) * (x0 - x1)) by apply Rle_0_sqr.
          assert (0 <= (M - q) * ((x0 + x1) * (x0 + x1))) by (apply Rmult_le_pos; lra).
          assert (0 <= (M + q) * ((x0 - x1) * (x0 - x1))) by (apply Rmult_le_pos; lra). lra. }
        assert (2 * x1 * r <= x1 * x1 + P * P) as I2.
        { assert (0 <= (x1 - r) * (x1 - r)) by apply Rle_0_sqr.
          assert (r * r <= P * P).
          { apply Rabs_le_between in HR. nra. } lra. }
        assert (2 * x0 * x1 <= x0 * x0 + x1 * x1) as I3.
        { assert (0 <= (x0 - x1) * (x0 - x1)) by apply Rle_0_sqr. lra. }
        assert (0 <= x0 * x0) by apply Rle_0_sqr. assert (0 <= x1 * x1) by apply Rle_0_sqr. assert (0 <= P * P) by apply Rle_0_sqr.
        assert (0 <= M * (P * P)) by (apply Rmult_le_pos; assumption).
        unfold c. replace (2 * x1 * (q * x0 + r)) with (2 * x1 * (q * x0) + 2 * x1 * r) by ring.
        replace ((M + 2) * (x0 * x0 + x1 * x1 + P * P)) with (M * (x0 * x0 + x1 * x1) + M * (P * P) + 2 * (x0 * x0 + x1 * x1 + P * P)) by ring.
        lra. }
    unfold G in HG. rewrite H0, H1 in HG. replace (- c * 0) with 0 in HG by ring. rewrite exp_0 in HG.
    assert (exp (- c * x) * exp (c * x) = 1) as Ee by (rewrite <- exp_plus; replace (- c * x + c * x) with 0 by ring; apply exp_0).
    assert (exp (c * x) <= exp c) as Ec.
    { destruct (Req_dec x 1) as [->|Hne]; [rewrite Rmult_1_r; lra|]. left. apply exp_increasing. unfold c. nra. }
    pose proof (exp_pos (c * x)) as Ep.
    assert (e x * e x + e1 x * e1 x + P * P <= P * P * exp (c * x)) as Hf.
    { apply (Rmult_le_compat_r (exp (c * x))) in HG; [|lra].
      rewrite Rmult_assoc, Ee in HG. lra. }
    assert (0 <= P * P) by apply Rle_0_sqr.
    assert (P * P * exp (c * x) <= P * P * exp c) by (apply Rmult_le_compat_l; lra). lra. }
  assert (1 <= exp c) as Hc1 by (rewrite <- exp_0; left; apply exp_increasing; unfold c; lra).
  assert (forall x, 0 <= x <= b -> Rabs (e x) <= P * exp c) as He.
  { intros x Hx. specialize (HS x Hx). apply Rsqr_incr_0_var; [|apply Rmult_le_pos; [lra|lra]].
    rewrite <- Rsqr_abs. unfold Rsqr. assert (0 <= e1 x * e1 x) by apply Rle_0_sqr.
    assert (0 <= P * P) by apply Rle_0_sqr.
    assert (P * P * exp c <= P * P * (exp c * exp c)) by (apply Rmult_le_compat_l; [lra|]; nra).
    replace (P * exp c * (P * exp c)) with (P * P * (exp c * exp c)) by ring. lra. }
  set (K := (M * exp c + 1) * P).
  assert (forall x, 0 < x < b -> Rabs (e2 x) <= K) as H2.
  { intros x Hx. replace (e2 x) with ((e2 x - Q x * e x) + Q x * e x) by ring.
    eapply Rle_trans; [apply Rabs_triang|]. rewrite Rabs_mult. specialize (HR x Hx). specialize (HQ x Hx). specialize (He x ltac:(lra)).
    assert (Rabs (Q x) * Rabs (e x) <= M * (P * exp c)) by (apply Rmult_le_compat; try apply Rabs_pos; assumption).
    unfold K. lra. }
  assert (0 <= K) as HK by (unfold K; apply Rmult_le_pos; [|lra]; assert (0 <= M * exp c) by (apply Rmult_le_pos; lra); lra).
  assert (forall x, 0 <= x <= b -> Rabs (e1 x) <= b * K) as H3.
  { intros x Hx. replace (e1 x) with (e1 x - e1 0) by (rewrite H1; ring).
    eapply Rle_trans; [apply (mvt_bound_open e1 e2 b K); auto; lra|]. apply Rmult_le_compat_r; lra. }
  intros x Hx. split; [apply H3, Hx|]. assert (0 <= b * K) by (apply Rmult_le_pos; lra).
  replace (e x) with (e x - e 0) by (rewrite H0; ring).
  eapply Rle_trans; [apply (mvt_bound_open e e1 b (b * K)); auto; try lra; intros; apply H3; lra|]. apply Rmult_le_compat_r; lra.
Qed.

(** ---- exact fundamental matrix of a sector and the computed one *)
Definition nearT (T : Tm) (a b c d eps : R) : Prop :=
  Rabs (t00 T - a) <= eps /\ Rabs (t01 T - b) <= eps /\ Rabs (t10 T - c) <= eps /\ Rabs (t11 T - d) <= eps.
(** entries of a fundamental matrix: c, d solutions with (c, c')(0) = (1, 0), (d, d')(0) = (0, 1) *)
Definition fundamental (Pot : R -> R) (E h : R) (c c' d d' : R -> R) : Prop :=
  solves Pot E h c c' /\ solves Pot E h d d' /\ c 0 = 1 /\ c' 0 = 0 /\ d 0 = 0 /\ d' 0 = 1.

Lemma wronskian_const : forall Pot E h y y' z z', 0 <= h -> solves Pot E h y y' -> solves Pot E h z z' ->
  forall x, 0 <= x <= h -> y x * z' x - z x * y' x = y 0 * z' 0 - z 0 * y' 0.
Proof.
  intros Pot E h y y' z z' Hh Hy Hz x Hx.
  pose (f := fun x => y x * z' x - z x * y' x).
  assert (forall t, 0 <= t <= h -> is_derive f t 0) as Hd.
  { intros t Ht. destruct (Hy t Ht) as [A1 A2]. destruct (Hz t Ht) as [B1 B2]. unfold f.
    auto_derive.
    - repeat split; eexists; eassumption.
    - change (Derive (fun x => y x) t) with (Derive y t). change (Derive (fun x => y' x) t) with (Derive y' t).
      change (Derive (fun x => z x) t) with (Derive z t). change (Derive (fun x => z' x) t) with (Derive z' t).
      rewrite (is_derive_unique _ _ _ A1), (is_derive_unique _ _ _ A2), (is_derive_unique _ _ _ B1), (is_derive_unique _ _ _ B2). ring. }
  assert (Rabs (f x - f 0) <= x * 0) as H.
  { apply (mvt_bound_open f (fun _ => 0) h 0); try lra.
    - intros t Ht. apply Hd. lra.
    - intros t Ht. apply (ex_derive_continuous f). exists 0. apply Hd. lra.
    - intros. rewrite Rabs_R0. lra. }
  rewrite Rmult_0_r in H. pose proof (Rabs_pos (f x - f 0)). assert (Rabs (f x - f 0) = 0) by lra.
  apply Rabs_eq_0 in H1. unfold f in H1. lra.
Qed.

Lemma fundamental_exists : forall N v h E, exists c c' d d', fundamental (sector_potential N v h) E h c c' d d'.
Proof.
  intros N v h E. destruct (solution_exists N v h E 1 0) as (c & c' & H1 & H2 & H3).
  destruct (solution_exists N v h E 0 1) as (d & d' & H4 & H5 & H6). exists c, c', d, d'. exact (conj H1 (conj H4 (conj H2 (conj H3 (conj H5 H6))))).
Qed.

Lemma unit_growth : forall t k n x, t <= k * n * Rabs (x - 0) -> n = 1 -> 0 <= x -> t <= k * x.
Proof. intros t k n x H -> Hx. rewrite Rmult_1_r, Rminus_0_r, (Rabs_pos_eq x Hx) in H. exact H. Qed.
Lemma sector_matrix : forall B W, 0 <= B -> 0 <= W -> exists K, 0 <= K /\
  forall (s : sector R (list R)) E, let v k := nth k (spay s) 0 in let h := sh s in
  (forall k, (1 <= k <= 15)%nat -> Rabs (v k) <= B) -> Rabs (v 0%nat - E) <= W -> 0 < h <= 1 ->
  forall c c' d d', fundamental (sector_potential 15 v h) E h c c' d d' ->
    (forall x, 0 <= x <= h -> c x * d' x - d x * c' x = 1 /\
       Rabs (c x - 1) <= K * h /\ Rabs (c' x) <= K * h /\ Rabs (d x) <= K * h /\ Rabs (d' x - 1) <= K * h) /\
    (forall x u, 0 <= x <= h -> nearT (calculateT eta_code s E x u) (c x) (d x) (c' x) (d' x) (K * (h ^ 15 + / 10 ^ 12))) /\
    (/ 10 ^ 12 < h -> forall u : bool, nearT (calculateT eta_code s E h u) (c h) (d h) (c' h) (d' h) (K * (h ^ (if u then 19 else 15) + / 10 ^ 20))) /\
    (forall u, calculateT eta_code s E 0 u = Tid).
Proof.
  intros B W HB HW.
  destruct (solution_growth B W HB HW) as (Kg & HKg & Hg). destruct (code_error B W HB HW) as (Kc & HKc & Hc).
  destruct (partial_error 15 ltac:(lia) B W HB HW) as (Kp & HKp & Hp). destruct (full_error B W HB HW) as (Kf & HKf & Hf).
  destruct (calculateT_error B W HB HW) as (Kt & HKt & Ht).
  exists (Kg + Kc + Kp + Kf + Kt). split; [lra|].
  intros s E v h Hv Hw Hh c c' d d' (F1 & F2 & F3 & F4 & F5 & F6).
  set (K := Kg + Kc + Kp + Kf + Kt).
  assert (0 < h ^ 15) as P15 by (apply pow_lt; lra). assert (0 < h ^ 16) as P16 by (apply pow_lt; lra). assert (0 < h ^ 19) as P19 by (apply pow_lt; lra).
  assert (h ^ 16 <= h ^ 15) as P1615 by (apply (pow_le_h h); [lra|lia]).
  assert (0 < / 10 ^ 12) as Heps by (apply Rinv_0_lt_compat, pow_lt; lra).
  assert (0 < / 10 ^ 20) as Ht20 by (apply Rinv_0_lt_compat, pow_lt; lra).
  assert (forall a b k p p', Rabs (a - b) <= k * p -> 0 <= k <= K -> 0 <= p <= p' -> Rabs (a - b) <= K * p') as Fin.
  { intros a b k p p' H1 H2 H3. eapply Rle_trans; [exact H1|]. apply Rmult_le_compat; lra. }
  split; [|split; [|split]].
  - intros x Hx. split.
    + rewrite (wronskian_const _ E h c c' d d' ltac:(lra) F1 F2 x Hx), F3, F4, F5, F6. ring.
    + destruct (Hg v h E Hv Hw Hh c c' F1 x 0 Hx ltac:(lra)) as [G1 G2]. destruct (Hg v h E Hv Hw Hh d d' F2 x 0 Hx ltac:(lra)) as [G3 G4].
      apply unit_growth in G1; [|rewrite F3, F4, Rabs_R1, Rabs_R0; ring|lra]. apply unit_growth in G2; [|rewrite F3, F4, Rabs_R1, Rabs_R0; ring|lra].
      apply unit_growth in G3; [|rewrite F5, F6, Rabs_R1, Rabs_R0; ring|lra]. apply unit_growth in G4; [|rewrite F5, F6, Rabs_R1, Rabs_R0; ring|lra].
      rewrite F3 in G1. rewrite F4, Rminus_0_r in G2. rewrite F5, Rminus_0_r in G3. rewrite F6 in G4.
      assert (Kg * x <= K * h) by (apply Rmult_le_compat; unfold K; lra). repeat split; lra.
  - intros x u Hx.
    destruct (Ht s E Hv Hw Hh c c' F1 x u Hx) as [T0 T2]. destruct (Ht s E Hv Hw Hh d d' F2 x u Hx) as [T1 T3].
    fold h in T0, T1, T2, T3. rewrite F3, F4, Rabs_R1, Rabs_R0, !Rmult_1_r, !Rmult_0_r, !Rplus_0_r, ?Rmult_1_r in T0, T2.
    rewrite F5, F6, Rabs_R1, Rabs_R0, !Rmult_1_r, !Rmult_0_r, !Rplus_0_l, ?Rmult_1_r in T1, T3.
    unfold EPS12 in *.
    repeat split; (eapply Fin; [eassumption|unfold K; lra|lra]).
  - intros Hh2 u. specialize (Hc v h E Hv Hw Hh).
    assert (Hc' := fun q Hq => proj2 (Hc q Hq)). assert (Hc'' := fun q Hq => proj1 (Hc q Hq) h ltac:(lra)). clear Hc.
    assert (forall a a' t k p, Rabs (a - a') <= Kc * / 10 ^ 20 -> Rabs (a' - t) <= k * p -> 0 <= k -> k + Kc <= K -> 0 <= p -> Rabs (a - t) <= K * (p + / 10 ^ 20)) as Fin2.
    { intros a a' t k p A1 A2 A3 A4 A5. replace (a - t) with ((a - a') + (a' - t)) by ring. eapply Rle_trans; [apply Rabs_triang|].
      assert (k * p <= K * p) by (apply Rmult_le_compat_r; lra). assert (Kc * / 10 ^ 20 <= K * / 10 ^ 20) by (apply Rmult_le_compat_r; lra). lra. }
    destruct u.
    + assert (calculateT eta_code s E h true = step_full eta_code v h E) as ->.
      { apply calculateT_full; [unfold EPS12; rewrite Rabs_pos_eq; lra|]. unfold h. rewrite Rminus_eq_0, Rabs_R0. unfold EPS12; lra. }
      pose proof (Hf v h E Hv Hw Hh c c' F1) as [T0 T2]. pose proof (Hf v h E Hv Hw Hh d d' F2) as [T1 T3].
      rewrite F3, F4, Rabs_R1, Rabs_R0, !Rmult_1_r, !Rmult_0_r, !Rplus_0_r, ?Rmult_1_r in T0, T2.
      rewrite F5, F6, Rabs_R1, Rabs_R0, !Rmult_1_r, !Rmult_0_r, !Rplus_0_l, ?Rmult_1_r in T1, T3.
      pose proof (Hc' 0%nat ltac:(lia)) as C0. pose proof (Hc' 1%nat ltac:(lia)) as C1.
      pose proof (Hc' 2%nat ltac:(lia)) as C2. pose proof (Hc' 3%nat ltac:(lia)) as C3. cbn [tent] in C0, C1, C2, C3.
      repeat split; (eapply Fin2; [eassumption|eassumption|lra|unfold K; lra|lra]).
    + assert (calculateT eta_code s E h false = step_delta eta_code v h E h) as ->.
      { apply calculateT_partial; [unfold EPS12; rewrite Rabs_pos_eq; lra|auto]. }
      pose proof (Hp v h E Hv Hw Hh c c' F1 h ltac:(lra)) as [T0 T2]. pose proof (Hp v h E Hv Hw Hh d d' F2 h ltac:(lra)) as [T1 T3].
      change (deg_of 15 + 2)%nat with 16%nat in *. change (deg_of 15 + 1)%nat with 15%nat in *.
      rewrite F3, F4, Rabs_R1, Rabs_R0, !Rmult_1_r, !Rmult_0_r, !Rplus_0_r, ?Rmult_1_r in T0, T2.
      rewrite F5, F6, Rabs_R1, Rabs_R0, !Rmult_1_r, !Rmult_0_r, !Rplus_0_l, ?Rmult_1_r in T1, T3.
      pose proof (Hc'' 0%nat ltac:(lia)) as C0. pose proof (Hc'' 1%nat ltac:(lia)) as C1.
      pose proof (Hc'' 2%nat ltac:(lia)) as C2. pose proof (Hc'' 3%nat ltac:(lia)) as C3. cbn [tent] in C0, C1, C2, C3.
      assert (forall X, X <= Kp * h ^ 16 -> X <= Kp * h ^ 15) as Up by (intros X HX; eapply Rle_trans; [exact HX|]; apply Rmult_le_compat_l; lra).
      apply Up in T0, T1.
      repeat split; (eapply Fin2; [eassumption|eassumption|lra|unfold K; lra|lra]).
  - intro u. apply calculateT_small. rewrite Rabs_R0. unfold EPS12. lra.
Qed.

(** ---- a solution of the true equation in a sector, in local coordinates *)
Definition local_solution (V : R -> R) (E h : R) (y y' : R -> R) : Prop :=
  (forall x, 0 <= x <= h -> continuous y x /\ continuous y' x) /\
  (forall x, 0 < x < h -> is_derive y x (y' x) /\ is_derive y' x ((V x - E) * y x)).

Lemma potential_bound : forall B W, 0 <= B -> 0 <= W -> exists M, 0 <= M /\
  forall v h E, (forall k, (1 <= k <= 15)%nat -> Rabs (v k) <= B) -> Rabs (v 0%nat - E) <= W -> 0 < h <= 1 ->
  forall x, 0 <= x <= h -> Rabs (sector_potential 15 v h x - E) <= M.
Proof.
  intros B W HB HW. exists (W + Cll B (map legD (seq 1 15))). split.
  { pose proof (Cll_nonneg B (map legD (seq 1 15)) HB). lra. }
  intros v h E Hv Hw Hh x Hx. rewrite <- Dsum_potential by (try lia; lra).
  replace (v 0%nat + Dsum v h legD (seq 1 15) x - E) with ((v 0%nat - E) + Dsum v h legD (seq 1 15) x) by ring.
  eapply Rle_trans; [apply Rabs_triang|]. apply Rplus_le_compat; [exact Hw|].
  apply (Dsum_bound v h B); auto. intros k Hk. apply legD_good'. apply in_seq in Hk. lia.
Qed.

Lemma continuous_affine : forall a b x, continuous (fun x => a + b * x) x.
Proof. intros. apply (ex_derive_continuous (fun x => a + b * x)). auto_derive. exact I. Qed.

Lemma local_growth : forall M, 0 <= M -> exists K, 0 <= K /\ forall V E h y y', 0 < h <= 1 ->
  (forall x, 0 < x < h -> Rabs (V x - E) <= M) -> local_solution V E h y y' ->
  forall x, 0 <= x <= h -> Rabs (y x - y 0) <= K * h * (Rabs (y 0) + Rabs (y' 0)) /\ Rabs (y' x - y' 0) <= K * h * (Rabs (y 0) + Rabs (y' 0)).
Proof.
  intros M HM. set (G := (M * exp (M + 2) + 1) * M).
  assert (0 <= G) as HG.
  { unfold G. apply Rmult_le_pos; [|exact HM]. assert (0 <= M * exp (M + 2)) by (apply Rmult_le_pos; [exact HM|left; apply exp_pos]). lra. }
  exists (1 + G). split; [lra|]. intros V E h y y' Hh HV [Hc Hd] x Hx.
  set (S := Rabs (y 0) + Rabs (y' 0)). pose proof (Rabs_pos (y 0)) as Ha. pose proof (Rabs_pos (y' 0)) as Hb. assert (0 <= S) as HS by (unfold S; lra).
  set (Q := fun x => V x - E). set (e := fun x => y x - (y 0 + y' 0 * x)). set (e1 := fun x => y' x - y' 0). set (e2 := fun x => Q x * y x).
  assert (forall x, 0 <= x <= h -> Rabs (e1 x) <= h * (G * S) /\ Rabs (e x) <= h * (h * (G * S))) as He.
  { assert (G * S = (M * exp (M + 2) + 1) * (M * S)) as -> by (unfold G; ring).
    apply (gronwall_open e e1 e2 Q h M (M * S)); auto.
    - lra.
    - apply Rmult_le_pos; assumption.
    - intros t Ht. unfold e, e1. apply (is_derive_minus y (fun x => y 0 + y' 0 * x)); [apply Hd, Ht|]. auto_derive; [exact I|ring].
    - intros t Ht. unfold e1, e2. evar_last; [apply (is_derive_minus y' (fun _ => y' 0)); [apply Hd, Ht|apply (is_derive_const (y' 0))]|].
      unfold minus, plus, opp, zero, Q; simpl. ring.
    - intros t Ht. apply (continuous_minus y (fun x => y 0 + y' 0 * x)); [apply Hc, Ht|apply continuous_affine].
    - intros t Ht. apply (continuous_minus y' (fun x => y' 0)); [apply Hc, Ht|apply continuous_const].
    - intros t Ht. unfold e2, e. replace (Q t * y t - Q t * (y t - (y 0 + y' 0 * t))) with (Q t * (y 0 + y' 0 * t)) by ring.
      rewrite Rabs_mult. apply Rmult_le_compat; try apply Rabs_pos; [apply HV, Ht|].
      eapply Rle_trans; [apply Rabs_triang|]. rewrite Rabs_mult, (Rabs_pos_eq t) by lra. unfold S.
      assert (Rabs (y' 0) * t <= Rabs (y' 0) * 1) by (apply Rmult_le_compat_l; lra). lra.
    - unfold e. ring.
    - unfold e1. ring. }
  destruct (He x Hx) as [H1 H2]. unfold e1 in H1. unfold e in H2. assert (0 <= G * S) by (apply Rmult_le_pos; assumption). assert (0 <= h * S) by (apply Rmult_le_pos; lra).
  split.
  - replace (y x - y 0) with ((y x - (y 0 + y' 0 * x)) + y' 0 * x) by ring. eapply Rle_trans; [apply Rabs_triang|].
    rewrite Rabs_mult, (Rabs_pos_eq x) by lra.
    assert (Rabs (y' 0) * x <= S * h) by (apply Rmult_le_compat; unfold S; lra).
    assert (h * (h * (G * S)) <= 1 * (h * (G * S))) by (apply Rmult_le_compat_r; [apply Rmult_le_pos|]; lra). lra.
  - lra.
Qed.

Lemma perturbed : forall B W D, 0 <= B -> 0 <= W -> 0 <= D -> exists K, 0 <= K /\
  forall v h E, (forall k, (1 <= k <= 15)%nat -> Rabs (v k) <= B) -> Rabs (v 0%nat - E) <= W -> 0 < h <= 1 ->
  forall V tau y y', 0 <= tau <= D -> (forall x, 0 < x < h -> Rabs (V x - sector_potential 15 v h x) <= tau) -> local_solution V E h y y' ->
  forall c c' d d', fundamental (sector_potential 15 v h) E h c c' d d' -> forall x, 0 <= x <= h ->
  Rabs (y x - (c x * y 0 + d x * y' 0)) <= K * h * tau * (Rabs (y 0) + Rabs (y' 0)) /\
  Rabs (y' x - (c' x * y 0 + d' x * y' 0)) <= K * h * tau * (Rabs (y 0) + Rabs (y' 0)).
Proof.
  intros B W D HB HW HD. destruct (potential_bound B W HB HW) as (M & HM & HP). destruct (local_growth (M + D) ltac:(lra)) as (Kl & HKl & Hl).
  set (G := (M * exp (M + 2) + 1)). assert (0 <= G) as HG.
  { unfold G. assert (0 <= M * exp (M + 2)) by (apply Rmult_le_pos; [exact HM|left; apply exp_pos]). lra. }
  exists (G * (1 + Kl)). split; [apply Rmult_le_pos; lra|].
  intros v h E Hv Hw Hh V tau y y' Htau HV Hy c c' d d' (F1 & F2 & F3 & F4 & F5 & F6).
  specialize (HP v h E Hv Hw Hh).
  assert (forall x, 0 < x < h -> Rabs (V x - E) <= M + D) as HVE.
  { intros x Hx. replace (V x - E) with ((V x - sector_potential 15 v h x) + (sector_potential 15 v h x - E)) by ring.
    eapply Rle_trans; [apply Rabs_triang|]. specialize (HV x Hx). specialize (HP x ltac:(lra)). lra. }
  specialize (Hl V E h y y' Hh HVE Hy). destruct Hy as [Hc Hd].
  set (S := Rabs (y 0) + Rabs (y' 0)) in *. pose proof (Rabs_pos (y 0)) as Ha. pose proof (Rabs_pos (y' 0)) as Hb. assert (0 <= S) as HS by (unfold S; lra).
  assert (forall x, 0 <= x <= h -> Rabs (y x) <= (1 + Kl) * S) as Hys.
  { intros x Hx. destruct (Hl x Hx) as [H1 _]. replace (y x) with (y 0 + (y x - y 0)) by ring. eapply Rle_trans; [apply Rabs_triang|].
    assert (Kl * h * S <= Kl * 1 * S) by (apply Rmult_le_compat_r; [exact HS|]; apply Rmult_le_compat_l; lra). unfold S in *. lra. }
  set (Q := fun x => sector_potential 15 v h x - E).
  set (e := fun x => y x - (c x * y 0 + d x * y' 0)). set (e1 := fun x => y' x - (c' x * y 0 + d' x * y' 0)).
  set (e2 := fun x => (V x - E) * y x - (Q x * c x * y 0 + Q x * d x * y' 0)).
  assert (forall (f : R -> R) x, 0 <= x <= h -> ex_derive f x -> continuous f x) as Exc by (intros f x _ Hf; apply (ex_derive_continuous f x Hf)).
  assert (forall (f g : R -> R) x, continuous f x -> continuous g x -> continuous (fun x => f x * y 0 + g x * y' 0) x) as Cc.
  { intros f g x Hf Hg. apply (continuous_plus (fun x => f x * y 0) (fun x => g x * y' 0)).
    - apply (continuous_mult f (fun _ => y 0)); [exact Hf|apply continuous_const].
    - apply (continuous_mult g (fun _ => y' 0)); [exact Hg|apply continuous_const]. }
  assert (forall (f g : R -> R) x df dg, is_derive f x df -> is_derive g x dg -> is_derive (fun x => f x * y 0 + g x * y' 0) x (df * y 0 + dg * y' 0)) as Dc.
  { intros f g x df dg Hf Hg. auto_derive; [repeat split; eexists; eassumption|].
    change (Derive (fun x => f x) x) with (Derive f x). change (Derive (fun x => g x) x) with (Derive g x).
    rewrite (is_derive_unique _ _ _ Hf), (is_derive_unique _ _ _ Hg). ring. }
  assert (forall x, 0 <= x <= h -> Rabs (e1 x) <= h * (G * (tau * ((1 + Kl) * S))) /\ Rabs (e x) <= h * (h * (G * (tau * ((1 + Kl) * S))))) as He.
  { assert (0 <= tau * ((1 + Kl) * S)) as HP0 by (apply Rmult_le_pos; [lra|apply Rmult_le_pos; lra]).
    unfold G. apply (gronwall_open e e1 e2 Q h M (tau * ((1 + Kl) * S))); auto.
    - lra.
    - intros t Ht. apply (is_derive_minus y (fun x => c x * y 0 + d x * y' 0)); [apply Hd, Ht|]. apply Dc; [apply F1; lra|apply F2; lra].
    - intros t Ht. apply (is_derive_minus y' (fun x => c' x * y 0 + d' x * y' 0)); [apply Hd, Ht|].
      unfold Q. apply (Dc c' d' t _ _ (proj2 (F1 t ltac:(lra))) (proj2 (F2 t ltac:(lra)))).
    - intros t Ht. apply (continuous_minus y (fun x => c x * y 0 + d x * y' 0)); [apply Hc, Ht|].
      apply (Cc c d); [apply (Exc c t Ht (ex_intro _ _ (proj1 (F1 t Ht))))|apply (Exc d t Ht (ex_intro _ _ (proj1 (F2 t Ht))))].
    - intros t Ht. apply (continuous_minus y' (fun x => c' x * y 0 + d' x * y' 0)); [apply Hc, Ht|].
      apply (Cc c' d'); [apply (Exc c' t Ht (ex_intro _ _ (proj2 (F1 t Ht))))|apply (Exc d' t Ht (ex_intro _ _ (proj2 (F2 t Ht))))].
    - intros t Ht. apply HP. lra.
    - intros t Ht. unfold e2, e.
      replace ((V t - E) * y t - (Q t * c t * y 0 + Q t * d t * y' 0) - Q t * (y t - (c t * y 0 + d t * y' 0))) with ((V t - sector_potential 15 v h t) * y t) by (unfold Q; ring).
      rewrite Rabs_mult. apply Rmult_le_compat; try apply Rabs_pos; [apply HV, Ht|apply Hys; lra].
    - unfold e. rewrite F3, F5. ring.
    - unfold e1. rewrite F4, F6. ring. }
  intros x Hx. destruct (He x Hx) as [H1 H2].
  assert (0 <= G * (tau * ((1 + Kl) * S))) by (apply Rmult_le_pos; [exact HG|]; apply Rmult_le_pos; [lra|apply Rmult_le_pos; lra]).
  fold S. replace (G * (1 + Kl) * h * tau * S) with (h * (G * (tau * ((1 + Kl) * S)))) by ring. split; [|exact H1].
  eapply Rle_trans; [exact H2|]. rewrite <- (Rmult_1_l (h * (G * _))) at 2. apply Rmult_le_compat_r; [apply Rmult_le_pos; lra|lra].
Qed.
