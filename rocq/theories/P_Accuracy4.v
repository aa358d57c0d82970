(** calculateT as executed (thresholds, computed eta functions) against the exact solution. *)
From Coq Require Import String Reals ZArith Lra Lia.
From Coquelicot Require Import Coquelicot.
From Coq Require Import List Bool.
From Verif Require Import Base S_Eta P_Eta M_Eta P_Eta2 S_Poly S_Legendre S_Formulas M_Sectors M_TableData M_Core M_Formulas
  P_Terms P_Terms2 P_Formulas P_Formulas2 P_Formulas3 P_Formulas4 P_Gronwall P_Accuracy P_Formulas5 P_Accuracy2 P_Accuracy3.
Import ListNotations.
Open Scope R_scope.

(** ---- growth of a solution *)
Lemma solution_growth : forall B W, 0 <= B -> 0 <= W -> exists K, 0 <= K /\
  forall v h E, (forall k, (1 <= k <= 15)%nat -> Rabs (v k) <= B) -> Rabs (v 0%nat - E) <= W -> 0 < h <= 1 ->
  forall z z', solves (sector_potential 15 v h) E h z z' ->
  forall x y, 0 <= x <= h -> 0 <= y <= h ->
    Rabs (z x - z y) <= K * (Rabs (z 0) + Rabs (z' 0)) * Rabs (x - y) /\
    Rabs (z' x - z' y) <= K * (Rabs (z 0) + Rabs (z' 0)) * Rabs (x - y).
Proof.
  intros B W HB HW. set (M := W + Cll B (map legD (seq 1 15))).
  assert (0 <= M) as HM by (pose proof (Cll_nonneg B (map legD (seq 1 15)) HB); unfold M; lra).
  set (G := (M * exp (M + 2) + 1) * M).
  assert (0 <= G) as HG.
  { unfold G. apply Rmult_le_pos; [|exact HM]. assert (0 <= M * exp (M + 2)) by (apply Rmult_le_pos; [exact HM|left; apply exp_pos]). lra. }
  exists (1 + G + M * (1 + G)). assert (0 <= M * (1 + G)) as HMG by (apply Rmult_le_pos; lra). split; [lra|].
  intros v h E Hv Hw Hh z z' Hz. set (S := Rabs (z 0) + Rabs (z' 0)).
  pose proof (Rabs_pos (z 0)) as Ha. pose proof (Rabs_pos (z' 0)) as Hb. assert (0 <= S) as HS by (unfold S; lra).
  set (Q := fun x => sector_potential 15 v h x - E).
  assert (forall x, 0 <= x <= h -> Rabs (Q x) <= M) as HQ.
  { intros x Hx. unfold Q, M. rewrite <- Dsum_potential by (try lia; lra).
    replace (v 0%nat + Dsum v h legD (seq 1 15) x - E) with ((v 0%nat - E) + Dsum v h legD (seq 1 15) x) by ring.
    eapply Rle_trans; [apply Rabs_triang|]. apply Rplus_le_compat; [exact Hw|].
    apply (Dsum_bound v h B); auto. intros k Hk. apply legD_good'. apply in_seq in Hk. lia. }
  set (e := fun x => z x - (z 0 + z' 0 * x)). set (e1 := fun x => z' x - z' 0). set (e2 := fun x => Q x * z x).
  assert (forall x, 0 <= x <= h -> Rabs (e1 x) <= h * (G * S) /\ Rabs (e x) <= h * (h * (G * S))) as He.
  { assert (G * S = (M * exp (M + 2) + 1) * (M * S)) as -> by (unfold G; ring).
    apply (gronwall e e1 e2 Q h M (M * S)); auto.
    - lra.
    - apply Rmult_le_pos; assumption.
    - intros x Hx. unfold e, e1. apply (is_derive_minus z (fun x => z 0 + z' 0 * x)); [apply Hz, Hx|]. auto_derive; [exact I|ring].
    - intros x Hx. unfold e1, e2. evar_last; [apply (is_derive_minus z' (fun _ => z' 0)); [apply Hz, Hx|apply (is_derive_const (z' 0))]|].
      unfold minus, plus, opp, zero, Q; simpl. ring.
    - intros x Hx. unfold e2, e. replace (Q x * z x - Q x * (z x - (z 0 + z' 0 * x))) with (Q x * (z 0 + z' 0 * x)) by ring.
      rewrite Rabs_mult. apply Rmult_le_compat; try apply Rabs_pos; [apply HQ, Hx|].
      eapply Rle_trans; [apply Rabs_triang|]. rewrite Rabs_mult, (Rabs_pos_eq x) by lra. unfold S.
      assert (Rabs (z' 0) * x <= Rabs (z' 0) * 1) by (apply Rmult_le_compat_l; lra). lra.
    - unfold e. ring.
    - unfold e1. ring. }
  assert (0 <= G * S) as HGS by (apply Rmult_le_pos; assumption).
  assert (forall x, 0 <= x <= h -> Rabs (z' x) <= (1 + G) * S) as Hz1.
  { intros x Hx. destruct (He x Hx) as [H1 _]. unfold e1 in H1.
    replace (z' x) with (z' 0 + (z' x - z' 0)) by ring. eapply Rle_trans; [apply Rabs_triang|].
    assert (h * (G * S) <= 1 * (G * S)) by (apply Rmult_le_compat_r; lra). unfold S in *. lra. }
  assert (forall x, 0 <= x <= h -> Rabs (z x) <= (1 + G) * S) as Hz0.
  { intros x Hx. destruct (He x Hx) as [_ H1]. unfold e in H1.
    replace (z x) with ((z 0 + z' 0 * x) + (z x - (z 0 + z' 0 * x))) by ring. eapply Rle_trans; [apply Rabs_triang|].
    assert (Rabs (z 0 + z' 0 * x) <= S).
    { eapply Rle_trans; [apply Rabs_triang|]. rewrite Rabs_mult, (Rabs_pos_eq x) by lra. unfold S.
      assert (Rabs (z' 0) * x <= Rabs (z' 0) * 1) by (apply Rmult_le_compat_l; lra). lra. }
    assert (h * (h * (G * S)) <= G * S).
    { assert (h * (G * S) <= 1 * (G * S)) by (apply Rmult_le_compat_r; lra).
      assert (h * (h * (G * S)) <= 1 * (h * (G * S))) by (apply Rmult_le_compat_r; [apply Rmult_le_pos; lra|lra]). lra. } lra. }
  assert (forall (f g : R -> R) L, 0 <= L -> (forall x, 0 <= x <= h -> is_derive f x (g x)) -> (forall x, 0 <= x <= h -> Rabs (g x) <= L) ->
    forall x y, 0 <= x <= h -> 0 <= y <= h -> Rabs (f x - f y) <= L * Rabs (x - y)) as Hmvt.
  { intros f g L HL Hd Hg x y Hx Hy.
    assert (forall t, Rmin y x <= t <= Rmax y x -> 0 <= t <= h) as Hr.
    { intros t Ht. pose proof (Rmin_glb y x 0 ltac:(lra) ltac:(lra)). pose proof (Rmax_lub y x h ltac:(lra) ltac:(lra)). lra. }
    destruct (MVT_gen f y x g) as (c & Hc & Ec).
    - intros t Ht. apply Hd, Hr. lra.
    - intros t Ht. apply continuity_pt_filterlim. apply (ex_derive_continuous f). exists (g t). apply Hd, Hr. exact Ht.
    - rewrite Ec, Rabs_mult. apply Rmult_le_compat_r; [apply Rabs_pos|]. apply Hg, Hr, Hc. }
  intros x y Hx Hy.
  assert (0 <= (1 + G) * S) by (apply Rmult_le_pos; lra). assert (0 <= M * (1 + G) * S) by (apply Rmult_le_pos; lra).
  pose proof (Rabs_pos (x - y)) as Hxy.
  split.
  - eapply Rle_trans; [apply (Hmvt z z' ((1 + G) * S)); auto; intros t Ht; apply Hz, Ht|]. apply Rmult_le_compat_r; [assumption|].
    fold S. lra.
  - eapply Rle_trans; [apply (Hmvt z' e2 (M * (1 + G) * S)); auto|].
    + intros t Ht. unfold e2, Q. apply Hz, Ht.
    + intros t Ht. unfold e2. rewrite Rabs_mult, Rmult_assoc. apply Rmult_le_compat; try apply Rabs_pos; [apply HQ, Ht|apply Hz0, Ht].
    + apply Rmult_le_compat_r; [assumption|]. fold S. lra.
Qed.

(** ---- computed against exact eta functions *)
Lemma rsum_le : forall n f g, (forall i, (i < n)%nat -> f i <= g i) -> rsum n f <= rsum n g.
Proof. induction n; intros f g H; cbn [rsum]; [lra|]. apply Rplus_le_compat; [apply IHn; auto|apply H; lia]. Qed.
Lemma hcol_good : forallb (fun q => forallb (fun i => forallb tgood (hcol q i)) (seq 0 10)) (seq 0 4) = true.
Proof. vm_cast_no_check (eq_refl true). Qed.
Lemma eta_err_le : forall z, 0 <= eta_err z <= / 10 ^ 20.
Proof. intro z. unfold eta_err. assert (0 < / 10 ^ 20) by (apply Rinv_0_lt_compat, pow_lt; lra). destruct (Rlt_dec _ _); lra. Qed.
Lemma scaled_bound : forall x C, Rabs (IZR DD * x) <= C -> Rabs x <= C.
Proof.
  intros x C H. rewrite Rabs_mult in H. pose proof (Rabs_pos x). assert (1 <= Rabs (IZR DD)).
  { rewrite Rabs_pos_eq; apply IZR_le; unfold DD; lia. } nra.
Qed.

Lemma code_error : forall B W, 0 <= B -> 0 <= W -> exists K, 0 <= K /\
  forall v h E, (forall k, (1 <= k <= 15)%nat -> Rabs (v k) <= B) -> Rabs (v 0%nat - E) <= W -> 0 < h <= 1 ->
  forall q, (q < 4)%nat ->
    (forall x, 0 <= x <= h -> Rabs (tent q (step_delta eta_code v h E x) - tent q (step_delta eta_exact v h E x)) <= K * / 10 ^ 20) /\
    Rabs (tent q (step_full eta_code v h E) - tent q (step_full eta_exact v h E)) <= K * / 10 ^ 20.
Proof.
  intros B W HB HW.
  set (Ka := fun q => rsum 9 (fun i => Cl B (nth i (acol q) []))). set (Kh := fun q => rsum 10 (fun i => Cl B (hcol q i))).
  assert (forall n f, (forall i, 0 <= f i) -> 0 <= rsum n f) as Hnn.
  { intros n f Hf. induction n; cbn [rsum]; [lra|]. specialize (Hf n). lra. }
  assert (forall q, 0 <= Ka q) as HKa by (intro q; apply Hnn; intro; apply Cl_nonneg, HB).
  assert (forall q, 0 <= Kh q) as HKh by (intro q; apply Hnn; intro; apply Cl_nonneg, HB).
  exists (W + rsum 4 (fun q => Ka q + Kh q)).
  assert (forall q, (q < 4)%nat -> Ka q + Kh q <= rsum 4 (fun q => Ka q + Kh q)) as Hs.
  { intros q Hq. pose proof (HKa 0%nat). pose proof (HKa 1%nat). pose proof (HKa 2%nat). pose proof (HKa 3%nat).
    pose proof (HKh 0%nat). pose proof (HKh 1%nat). pose proof (HKh 2%nat). pose proof (HKh 3%nat). cbn [rsum].
    destruct q as [|[|[|[|q]]]]; [| | | |lia]; lra. }
  split.
  { pose proof (Hs 0%nat ltac:(lia)). pose proof (HKa 0%nat). pose proof (HKh 0%nat). lra. }
  intros v h E Hv Hw Hh q Hq. specialize (Hs q Hq). specialize (HKa q). specialize (HKh q).
  assert (0 < / 10 ^ 20) as Ht by (apply Rinv_0_lt_compat, pow_lt; lra).
  assert (forall x, 0 <= x <= h -> (if (q =? 2)%nat then Rabs ((v 0%nat - E) * x) else 0) <= W) as Hbase.
  { intros x Hx. destruct (q =? 2)%nat; [|exact HW]. rewrite Rabs_mult, (Rabs_pos_eq x) by lra. pose proof (Rabs_pos (v 0%nat - E)).
    eapply Rle_trans; [|exact Hw]. rewrite <- (Rmult_1_r (Rabs (v 0%nat - E))) at 2. apply Rmult_le_compat_l; lra. }
  split.
  - intros x Hx. eapply Rle_trans; [apply partial_eta_error, Hq|].
    pose proof (eta_err_le ((v 0%nat - E) * (x * x))) as He. specialize (Hbase x Hx).
    apply Rmult_le_compat; try lra.
    + assert (0 <= (if (q =? 2)%nat then Rabs ((v 0%nat - E) * x) else 0)) by (destruct (q =? 2)%nat; [apply Rabs_pos|lra]).
      assert (0 <= rsum 9 (fun i => Rabs (horner (tcoeff v h q i) x HMAX_delta))) by (apply Hnn; intro; apply Rabs_pos). lra.
    + assert (rsum 9 (fun i => Rabs (horner (tcoeff v h q i) x HMAX_delta)) <= Ka q); [|lra].
      apply rsum_le. intros i Hi. apply scaled_bound. rewrite <- acol_val by exact Hi.
      eapply Rle_trans; [apply (leval_bound v h B Hv Hh 0)|]; [exact Hx| | |simpl; lra].
      * pose proof (acol_good' q Hq) as Hg. rewrite forallb_forall in Hg. apply Hg, nth_In. rewrite acol_length. exact Hi.
      * intros; lia.
  - eapply Rle_trans; [apply full_eta_error, Hq|].
    pose proof (eta_err_le ((v 0%nat - E) * h * h)) as He. specialize (Hbase h ltac:(lra)).
    apply Rmult_le_compat; try lra.
    + assert (0 <= (if (q =? 2)%nat then Rabs ((v 0%nat - E) * h) else 0)) by (destruct (q =? 2)%nat; [apply Rabs_pos|lra]).
      assert (0 <= rsum 10 (fun i => Rabs (tcoeff_h v h q i))) by (apply Hnn; intro; apply Rabs_pos). lra.
    + assert (rsum 10 (fun i => Rabs (tcoeff_h v h q i)) <= Kh q); [|lra].
      apply rsum_le. intros i Hi. apply scaled_bound. rewrite <- (hcol_val v h q i h) by exact Hi.
      eapply Rle_trans; [apply (leval_bound v h B Hv Hh 0)|]; [lra| | |simpl; lra].
      * pose proof hcol_good as Hg. rewrite forallb_forall in Hg. specialize (Hg q ltac:(apply in_seq; lia)).
        rewrite forallb_forall in Hg. apply Hg, in_seq. lia.
      * intros; lia.
Qed.

Lemma err_comb : forall a b a' b' u u' c e K S p r, Rabs (a - a') <= K * r -> Rabs (b - b') <= K * r ->
  Rabs (a' * u + b' * u' - c) <= e * S * p -> 0 <= r -> S = Rabs u + Rabs u' -> 0 <= K ->
  Rabs (a * u + b * u' - c) <= e * S * p + K * S * r.
Proof.
  intros a b a' b' u u' c e K S p r H1 H2 H3 Hr HS HK.
  replace (a * u + b * u' - c) with ((a' * u + b' * u' - c) + ((a - a') * u + (b - b') * u')) by ring.
  eapply Rle_trans; [apply Rabs_triang|]. apply Rplus_le_compat; [exact H3|].
  eapply Rle_trans; [apply Rabs_triang|]. rewrite !Rabs_mult.
  pose proof (Rabs_pos u). pose proof (Rabs_pos u').
  assert (Rabs (a - a') * Rabs u <= K * r * Rabs u) by (apply Rmult_le_compat_r; assumption).
  assert (Rabs (b - b') * Rabs u' <= K * r * Rabs u') by (apply Rmult_le_compat_r; assumption). subst S. lra.
Qed.

Theorem calculateT_error : forall B W, 0 <= B -> 0 <= W -> exists K, 0 <= K /\
  forall (s : sector R (list R)) E, let v k := nth k (spay s) 0 in let h := sh s in
  (forall k, (1 <= k <= 15)%nat -> Rabs (v k) <= B) -> Rabs (v 0%nat - E) <= W -> 0 < h <= 1 ->
  forall z z', solves (sector_potential 15 v h) E h z z' ->
  forall delta use_h, 0 <= delta <= h -> let T := calculateT eta_code s E delta use_h in
    Rabs (t00 T * z 0 + t01 T * z' 0 - z delta) <= K * (Rabs (z 0) + Rabs (z' 0)) * (h ^ 16 + EPS12) /\
    Rabs (t10 T * z 0 + t11 T * z' 0 - z' delta) <= K * (Rabs (z 0) + Rabs (z' 0)) * (h ^ 15 + EPS12).
Proof.
  intros B W HB HW.
  destruct (solution_growth B W HB HW) as (Kg & HKg & Hg). destruct (code_error B W HB HW) as (Kc & HKc & Hc).
  destruct (partial_error 15 ltac:(lia) B W HB HW) as (Kp & HKp & Hp). destruct (full_error B W HB HW) as (Kf & HKf & Hf).
  exists (Kg + Kc + Kp + Kf). split; [lra|].
  intros s E v h Hv Hw Hh z z' Hz delta use_h Hd T.
  set (S := Rabs (z 0) + Rabs (z' 0)). assert (0 <= S) as HS by (unfold S; pose proof (Rabs_pos (z 0)); pose proof (Rabs_pos (z' 0)); lra).
  specialize (Hg v h E Hv Hw Hh z z' Hz). specialize (Hc v h E Hv Hw Hh). specialize (Hp v h E Hv Hw Hh z z' Hz). specialize (Hf v h E Hv Hw Hh z z' Hz).
  fold S in Hg, Hp, Hf. change (deg_of 15 + 2)%nat with 16%nat in Hp. change (deg_of 15 + 1)%nat with 15%nat in Hp.
  assert (0 < EPS12) as Heps by (unfold EPS12; apply Rinv_0_lt_compat, pow_lt; lra).
  assert (/ 10 ^ 20 <= EPS12) as Heps2.
  { unfold EPS12. apply Rinv_le_contravar; [apply pow_lt; lra|]. apply Rle_pow; [lra|lia]. }
  assert (0 < / 10 ^ 20) as Ht20 by (apply Rinv_0_lt_compat, pow_lt; lra).
  assert (0 < h ^ 15) as P15 by (apply pow_lt; lra). assert (0 < h ^ 16) as P16 by (apply pow_lt; lra).
  assert (h ^ 19 <= h ^ 16) as P1916 by (apply (pow_le_h h); [lra|lia]). assert (h ^ 19 <= h ^ 15) as P1915 by (apply (pow_le_h h); [lra|lia]).
  assert (forall X Y p, X <= Kg * S * Y -> 0 <= Y <= EPS12 -> 0 <= p -> X <= (Kg + Kc + Kp + Kf) * S * (p + EPS12)) as Fin1.
  { intros X Y p HX HY Hp0. eapply Rle_trans; [exact HX|]. apply Rmult_le_compat; try lra; [apply Rmult_le_pos; assumption|].
    apply Rmult_le_compat_r; lra. }
  assert (forall X Kx p p', X <= Kx * S * p' + Kc * S * / 10 ^ 20 -> 0 <= Kx -> Kx + Kc <= Kg + Kc + Kp + Kf -> 0 <= p' <= p -> X <= (Kg + Kc + Kp + Kf) * S * (p + EPS12)) as Fin2.
  { intros X Kx p p' HX Hx0 Hx1 Hp0. eapply Rle_trans; [exact HX|].
    assert (Kx * S * p' <= Kx * S * p) by (apply Rmult_le_compat_l; [apply Rmult_le_pos|]; lra).
    assert (Kc * S * / 10 ^ 20 <= Kc * S * EPS12) by (apply Rmult_le_compat_l; [apply Rmult_le_pos|]; lra).
    assert ((Kx + Kc) * S * (p + EPS12) <= (Kg + Kc + Kp + Kf) * S * (p + EPS12)).
    { apply Rmult_le_compat_r; [lra|]. apply Rmult_le_compat_r; lra. }
    assert (0 <= Kx * S * EPS12) by (apply Rmult_le_pos; [apply Rmult_le_pos|]; lra).
    assert (0 <= Kc * S * p) by (apply Rmult_le_pos; [apply Rmult_le_pos|]; lra).
    rewrite !Rmult_plus_distr_r, !Rmult_plus_distr_l in H1. lra. }
  destruct (Rle_lt_dec (Rabs delta) EPS12) as [H1|H1].
  - unfold T. rewrite calculateT_small by exact H1. cbn [Tid t00 t01 t10 t11].
    destruct (Hg 0 delta ltac:(lra) Hd) as [G0 G1]. rewrite Rminus_0_l, Rabs_Ropp in G0, G1.
    split; (eapply Fin1; [|split; [apply Rabs_pos|exact H1]|lra]).
    + replace (1 * z 0 + 0 * z' 0 - z delta) with (z 0 - z delta) by ring. exact G0.
    + replace (0 * z 0 + 1 * z' 0 - z' delta) with (z' 0 - z' delta) by ring. exact G1.
  - destruct (Rle_lt_dec (Rabs (delta - h)) EPS12) as [H2|H2]; [destruct use_h|].
    + unfold T. rewrite calculateT_full by assumption. fold v. fold h.
      destruct (Hg h delta ltac:(lra) Hd) as [G0 G1]. rewrite (Rabs_minus_sym h delta) in G0, G1.
      cbv zeta in Hf. destruct Hf as [F0 F1].
      pose proof (proj2 (Hc 0%nat ltac:(lia))) as C0. pose proof (proj2 (Hc 1%nat ltac:(lia))) as C1.
      pose proof (proj2 (Hc 2%nat ltac:(lia))) as C2. pose proof (proj2 (Hc 3%nat ltac:(lia))) as C3. cbn [tent] in C0, C1, C2, C3.
      pose proof (err_comb _ _ _ _ _ _ _ _ _ S _ _ C0 C1 F0 ltac:(lra) eq_refl HKc) as R0.
      pose proof (err_comb _ _ _ _ _ _ _ _ _ S _ _ C2 C3 F1 ltac:(lra) eq_refl HKc) as R1.
      assert (forall r a b p, Rabs (r - a) <= Kf * S * h ^ 19 + Kc * S * / 10 ^ 20 -> Rabs (a - b) <= Kg * S * Rabs (delta - h) -> h ^ 19 <= p -> 0 < p ->
         Rabs (r - b) <= (Kg + Kc + Kp + Kf) * S * (p + EPS12)) as Hfin.
      { intros r a b p A1 A2 A3 A4. replace (r - b) with ((r - a) + (a - b)) by ring. eapply Rle_trans; [apply Rabs_triang|].
        assert (Kg * S * Rabs (delta - h) <= Kg * S * EPS12) by (apply Rmult_le_compat_l; [apply Rmult_le_pos|]; lra).
        assert (0 < h ^ 19) by (apply pow_lt; lra).
        assert (Kf * S * h ^ 19 <= Kf * S * p) by (apply Rmult_le_compat_l; [apply Rmult_le_pos|]; lra).
        assert (Kc * S * / 10 ^ 20 <= Kc * S * EPS12) by (apply Rmult_le_compat_l; [apply Rmult_le_pos|]; lra).
        assert (0 <= Kg * S * p) by (apply Rmult_le_pos; [apply Rmult_le_pos|]; lra).
        assert (0 <= Kc * S * p) by (apply Rmult_le_pos; [apply Rmult_le_pos|]; lra).
        assert (0 <= Kp * S * p) by (apply Rmult_le_pos; [apply Rmult_le_pos|]; lra).
        assert (0 <= Kp * S * EPS12) by (apply Rmult_le_pos; [apply Rmult_le_pos|]; lra).
        assert (0 <= Kf * S * EPS12) by (apply Rmult_le_pos; [apply Rmult_le_pos|]; lra).
        rewrite !Rmult_plus_distr_r, !Rmult_plus_distr_l. lra. }
      split; eapply Hfin; eauto.
    + unfold T. rewrite calculateT_partial by auto. fold v. fold h. destruct (Hp delta Hd) as [F0 F1].
      pose proof (proj1 (Hc 0%nat ltac:(lia)) delta Hd) as C0. pose proof (proj1 (Hc 1%nat ltac:(lia)) delta Hd) as C1.
      pose proof (proj1 (Hc 2%nat ltac:(lia)) delta Hd) as C2. pose proof (proj1 (Hc 3%nat ltac:(lia)) delta Hd) as C3. cbn [tent] in C0, C1, C2, C3.
      split; eapply Fin2; try (eapply err_comb; [| | |lra|reflexivity|exact HKc]; [eassumption|eassumption|eassumption]); lra.
    + unfold T. rewrite calculateT_partial by auto. fold v. fold h. destruct (Hp delta Hd) as [F0 F1].
      pose proof (proj1 (Hc 0%nat ltac:(lia)) delta Hd) as C0. pose proof (proj1 (Hc 1%nat ltac:(lia)) delta Hd) as C1.
      pose proof (proj1 (Hc 2%nat ltac:(lia)) delta Hd) as C2. pose proof (proj1 (Hc 3%nat ltac:(lia)) delta Hd) as C3. cbn [tent] in C0, C1, C2, C3.
      split; eapply Fin2; try (eapply err_comb; [| | |lra|reflexivity|exact HKc]; [eassumption|eassumption|eassumption]); lra.
Qed.
