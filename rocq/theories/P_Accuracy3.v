(** The one-step error of the full-step propagator, by comparison with the series of the exact propagator. *)
From Coq Require Import String Reals ZArith Lra Lia.
From Coquelicot Require Import Coquelicot.
From Coq Require Import List Bool.
From Verif Require Import Base S_Eta P_Eta M_Eta P_Eta2 S_Poly S_Legendre S_Formulas M_Sectors M_TableData M_Core M_Formulas
  P_Terms P_Terms2 P_Formulas P_Formulas2 P_Formulas3 P_Formulas4 P_Gronwall P_Accuracy P_Formulas5 P_Accuracy2 P_WitnessData.
Import ListNotations.
Open Scope R_scope.

Lemma wit_check0 : column_ok 18 legD (seq 1 15) 0 DD wit0 = true.
Proof. vm_cast_no_check (eq_refl true). Qed.
Lemma wit_check1 : column_ok 18 legD (seq 1 15) 1 DD wit1 = true.
Proof. vm_cast_no_check (eq_refl true). Qed.
Definition wit (c : nat) : list (list term) := match c with O => wit0 | _ => wit1 end.
(** the derivative row of the witness, without the term of eta_1 coming from a_0 = 1 *)
Definition wrow (q : nat) : list (list term) :=
  match q with
  | 0 => wit0 | 1 => wit1
  | 2 => der_highs 0 0 [] wit0 (map (fun _ => []) wit0)
  | _ => der_highs 0 0 [] wit1 (map (fun _ => []) wit1)
  end%nat.
Lemma wit_der_check : forallb (fun c => der_ok 0 0 [] (wit c) (map (fun _ => []) (wit c))) [0%nat; 1%nat] = true.
Proof. vm_cast_no_check (eq_refl true). Qed.
Lemma wit_first : hd [] wit0 = [Te DD 0 0 []] /\ hd [] wit1 = [].
Proof. split; vm_compute; reflexivity. Qed.
(** tabulated full step minus witness at delta = h *)
Definition wdiff (q i : nat) : list term := hcol q i ++ map (tsc (-1)) (map tcollapse (nth i (wrow q) [])).
Lemma wdiff_check : forallb (fun q => forallb (fun i => is_zero (low 19 (wdiff q i))) (seq 0 11)) (seq 0 4) = true.
Proof. vm_cast_no_check (eq_refl true). Qed.
Lemma wdiff_good : forallb (fun q => forallb (fun i => forallb tgood (wdiff q i)) (seq 0 11)) (seq 0 4) = true.
Proof. vm_cast_no_check (eq_refl true). Qed.
Lemma hcol_10 : forallb (fun q => match hcol q 10 with [] => true | _ => false end) (seq 0 4) = true.
Proof. vm_cast_no_check (eq_refl true). Qed.
Lemma wrow_length : forall q, List.length (wrow q) = 11%nat.
Proof. intros [|[|[|q]]]; cbn [wrow]; rewrite ?der_highs_length; reflexivity. Qed.

Definition base2 (q : nat) (w x : R) : R := if (q =? 2)%nat then w * x * eta 1 (w * (x * x)) else 0.
Lemma wrow_val : forall c v h w x, (c < 2)%nat ->
  / IZR DD * ysum v h w 0 (wit c) x = base2 c w x + / IZR DD * hsum v h w 0 (wrow c) x /\
  / IZR DD * y1sum v h w 0 (wit c) x = base2 (c + 2) w x + / IZR DD * hsum v h w 0 (wrow (c + 2)) x.
Proof.
  intros c v h w x Hc. pose proof DD_nz as HD.
  assert (der_ok 0 0 [] (wit c) (map (fun _ => []) (wit c)) = true) as Hk.
  { pose proof wit_der_check as H. rewrite forallb_forall in H. apply H. destruct c as [|[|c]]; [left|right; left|lia]; reflexivity. }
  assert (leval v h x (hd [] (wit c)) = if (c =? 0)%nat then IZR DD else 0) as Hf.
  { destruct wit_first as [F0 F1]. destruct c as [|[|c]]; [| |lia]; cbn [wit]; [rewrite F0|rewrite F1]; cbn [leval fold_right teval vprod pow Nat.eqb]; ring. }
  assert (forall l, hsum v h w 0 (map (fun _ : list term => []) l) x = 0) as Hz.
  { intro l. generalize 0%nat. induction l as [|a l IH]; intro i; [reflexivity|]. cbn [map hsum]. rewrite IH.
    change (leval v h x []) with 0. ring. }
  assert (wrow (c + 2) = der_highs 0 0 [] (wit c) (map (fun _ => []) (wit c))) as Hw by (destruct c as [|[|c]]; [| |lia]; reflexivity).
  assert (wrow c = wit c) as Hw0 by (destruct c as [|[|c]]; [| |lia]; reflexivity).
  rewrite Hw, Hw0. clear Hw Hw0. split.
  - rewrite ysum_hsum. unfold base2. destruct (Nat.eqb_spec c 2); [lia|]. ring.
  - assert (wit c <> []) as Hne by (destruct c as [|[|c]]; [| |lia]; cbn [wit]; unfold wit0, wit1; discriminate).
    destruct (wit c) as [|a l]; [congruence|]. cbn [hd] in Hf.
    pose proof (der_val0 v h w 0 a l _ x Hk) as Hd. rewrite Hz, Hf, Rminus_0_r in Hd. rewrite Hd. unfold base2.
    destruct c as [|[|c]]; [| |lia]; cbn [Nat.eqb Nat.add]; field; exact HD.
Qed.

Lemma full_hsum : forall q v h E, (q < 4)%nat ->
  tent q (step_full eta_exact v h E)
  = base2 q (v 0%nat - E) h + / IZR DD * hsum v h (v 0%nat - E) 0 (map (hcol q) (seq 0 11)) h.
Proof.
  intros q v h E Hq. rewrite step_full_val by exact Hq. fold (base2 q (v 0%nat - E) h). apply (f_equal (Rplus _)).
  rewrite hsum_rsum, map_length, seq_length. cbn [rsum Nat.add].
  assert (hcol q 10 = []) as E10.
  { pose proof hcol_10 as H. rewrite forallb_forall in H. specialize (H q ltac:(apply in_seq; lia)). destruct (hcol q 10); [reflexivity|discriminate]. }
  assert (forall k, (k < 11)%nat -> nth k (map (hcol q) (seq 0 11)) [] = hcol q k) as En.
  { intros k Hk. rewrite (nth_indep _ [] (hcol q 0)) by (rewrite map_length, seq_length; exact Hk).
    rewrite map_nth, seq_nth by exact Hk. reflexivity. }
  rewrite !En by lia. rewrite E10. change (leval v h h []) with 0. rewrite !hcol_val by lia. field. apply DD_nz.
Qed.

Definition wdiffs (q : nat) : list (list term) := map (wdiff q) (seq 0 11).
Lemma tcollapse_hsum : forall v h w l i, hsum v h w i (map (fun a => map tcollapse a) l) h = hsum v h w i l h.
Proof. induction l as [|a l IH]; intro i; [reflexivity|]. cbn [map hsum]. rewrite IH, tcollapse_val. reflexivity. Qed.
Lemma wdiff_val : forall q v h w, (q < 4)%nat ->
  hsum v h w 0 (map (hcol q) (seq 0 11)) h - hsum v h w 0 (wrow q) h = hsum v h w 0 (map (high 19) (wdiffs q)) h.
Proof.
  intros q v h w Hq. rewrite !hsum_rsum, wrow_length. unfold wdiffs. rewrite !map_length, seq_length.
  rewrite rsum_minus. apply rsum_ext. intros i Hi. rewrite <- Rmult_minus_distr_r. apply (f_equal (fun y => y * _)).
  assert (forall (f : nat -> list term), nth i (map f (seq 0 11)) [] = f i) as En.
  { intro f. rewrite (nth_indep _ [] (f 0%nat)) by (rewrite map_length, seq_length; exact Hi). rewrite map_nth, seq_nth by exact Hi. reflexivity. }
  rewrite map_map, !En.
  assert (is_zero (low 19 (wdiff q i)) = true) as Hz.
  { pose proof wdiff_check as H. rewrite forallb_forall in H. specialize (H q ltac:(apply in_seq; lia)).
    rewrite forallb_forall in H. apply H, in_seq. lia. }
  apply (is_zero_val v h h) in Hz. pose proof (leval_low_high v h h 19 (wdiff q i)) as Hs. rewrite Hz, Rplus_0_l in Hs. rewrite <- Hs.
  unfold wdiff. rewrite leval_app, leval_tsc, tcollapse_val. ring.
Qed.

Theorem full_error : forall B W, 0 <= B -> 0 <= W -> exists K, 0 <= K /\
  forall v h E, (forall k, (1 <= k <= 15)%nat -> Rabs (v k) <= B) -> Rabs (v 0%nat - E) <= W -> 0 < h <= 1 ->
  forall z z', solves (sector_potential 15 v h) E h z z' ->
  let T := step_full eta_exact v h E in
    Rabs (t00 T * z 0 + t01 T * z' 0 - z h) <= K * (Rabs (z 0) + Rabs (z' 0)) * h ^ 19 /\
    Rabs (t10 T * z 0 + t11 T * z' 0 - z' h) <= K * (Rabs (z 0) + Rabs (z' 0)) * h ^ 19.
Proof.
  intros B W HB HW.
  destruct (pair_error 18 legD (seq 1 15) DD wit0 wit1 wit_check0 wit_check1
    ltac:(discriminate) ltac:(intros k u Hk; apply legD_deg; apply in_seq in Hk; lia)
    ltac:(intros k Hk; apply legD_good'; apply in_seq in Hk; lia) B W HB HW) as (K & HK & HKe).
  set (Dq := fun q => Rabs (/ IZR DD) * (Cll B (map (high 19) (wdiffs q)) * eta 0 W)).
  assert (forall q, 0 <= Dq q) as HDq.
  { intro q. apply Rmult_le_pos; [apply Rabs_pos|]. apply Rmult_le_pos; [apply Cll_nonneg, HB|apply eta0_nonneg, HW]. }
  pose proof (HDq 0%nat) as HD0. pose proof (HDq 1%nat) as HD1. pose proof (HDq 2%nat) as HD2. pose proof (HDq 3%nat) as HD3.
  exists (K + (Dq 0%nat + Dq 1%nat + Dq 2%nat + Dq 3%nat)). split; [lra|].
  intros v h E Hv Hw Hh z z' Hz T. set (w := v 0%nat - E) in *.
  assert (h <> 0) as Hh0 by lra.
  destruct (HKe v h w Hv Hw Hh z z') with (x := h) as [G1 G0]; [| |lra|].
  { intros t Ht. apply Hz, Ht. }
  { intros t Ht. pose proof (proj2 (Hz t Ht)) as H. rewrite <- Dsum_potential in H by (try assumption; lia).
    replace (w + Dsum v h legD (seq 1 15) t) with (v 0%nat + Dsum v h legD (seq 1 15) t - E) by (unfold w; ring). exact H. }
  assert (forall q, (q < 4)%nat -> exists d, Rabs d <= Dq q * h ^ 19 /\
     tent q T = base2 q w h + / IZR DD * hsum v h w 0 (wrow q) h + d) as HT.
  { intros q Hq. exists (/ IZR DD * hsum v h w 0 (map (high 19) (wdiffs q)) h). split.
    - rewrite Rabs_mult. unfold Dq. rewrite Rmult_assoc. apply Rmult_le_compat_l; [apply Rabs_pos|].
      apply (hsum_bound v h B Hv Hh w W Hw 19); [lra| |].
      + unfold wdiffs. rewrite map_map. rewrite forallb_forall. intros a Ha. apply in_map_iff in Ha. destruct Ha as (i & <- & Hi).
        apply lgood_filter. pose proof wdiff_good as H. rewrite forallb_forall in H. specialize (H q ltac:(apply in_seq; lia)).
        rewrite forallb_forall in H. apply H, Hi.
      + intros r t Hr Ht. apply in_map_iff in Hr. destruct Hr as (a & <- & _). apply high_deg in Ht. exact Ht.
    - unfold T. rewrite full_hsum by exact Hq. fold w. rewrite <- wdiff_val by exact Hq. ring. }
  destruct (HT 0%nat ltac:(lia)) as (d0 & B0 & T0). destruct (HT 1%nat ltac:(lia)) as (d1 & B1 & T1).
  destruct (HT 2%nat ltac:(lia)) as (d2 & B2 & T2). destruct (HT 3%nat ltac:(lia)) as (d3 & B3 & T3).
  destruct (wrow_val 0 v h w h ltac:(lia)) as [W0 W2]. destruct (wrow_val 1 v h w h ltac:(lia)) as [W1 W3]. cbn [Nat.add wit] in W0, W1, W2, W3.
  rewrite <- W0 in T0. rewrite <- W1 in T1. rewrite <- W2 in T2. rewrite <- W3 in T3. cbn [tent] in T0, T1, T2, T3.
  clear W0 W1 W2 W3 HT HKe. unfold comb in G0, G1.
  pose proof (Rabs_pos (z 0)) as Ha. pose proof (Rabs_pos (z' 0)) as Hb.
  assert (0 <= h ^ 19) as Hp by (apply pow_le; lra).
  assert (h ^ (18 + 2) <= h ^ 19) as Hp2 by (apply (pow_le_h h); [lra|lia]). change (18 + 1)%nat with 19%nat in G1.
  assert (forall da db Da Db, Rabs da <= Da * h ^ 19 -> Rabs db <= Db * h ^ 19 -> 0 <= Da -> 0 <= Db ->
    Rabs (da * z 0 + db * z' 0) <= (Da + Db) * (Rabs (z 0) + Rabs (z' 0)) * h ^ 19) as Hcomb.
  { intros da db Da Db H1 H2 P1 P2. eapply Rle_trans; [apply Rabs_triang|]. rewrite !Rabs_mult. set (p := h ^ 19) in *.
    assert (Rabs da * Rabs (z 0) <= Da * p * Rabs (z 0)) by (apply Rmult_le_compat_r; assumption).
    assert (Rabs db * Rabs (z' 0) <= Db * p * Rabs (z' 0)) by (apply Rmult_le_compat_r; assumption).
    assert (0 <= Da * p * Rabs (z' 0)) by (apply Rmult_le_pos; [apply Rmult_le_pos|]; assumption).
    assert (0 <= Db * p * Rabs (z 0)) by (apply Rmult_le_pos; [apply Rmult_le_pos|]; assumption).
    replace ((Da + Db) * (Rabs (z 0) + Rabs (z' 0)) * p)
      with (Da * p * Rabs (z 0) + Da * p * Rabs (z' 0) + (Db * p * Rabs (z 0) + Db * p * Rabs (z' 0))) by ring. lra. }
  pose proof (Hcomb d0 d1 _ _ B0 B1 HD0 HD1) as C0. pose proof (Hcomb d2 d3 _ _ B2 B3 HD2 HD3) as C1.
  set (S := Rabs (z 0) + Rabs (z' 0)) in *. assert (0 <= S) as HS by (unfold S; lra).
  assert (0 <= S * h ^ 19) as HSp by (apply Rmult_le_pos; assumption).
  assert (K * S * h ^ (18 + 2) <= K * S * h ^ 19) by (apply Rmult_le_compat_l; [apply Rmult_le_pos; assumption|assumption]).
  assert (forall X Y Q, 0 <= Q -> Y <= (K + (X + Q)) * S * h ^ 19 - Q * (S * h ^ 19) -> Y <= (K + (X + Q)) * S * h ^ 19) as Hdrop.
  { intros X Y Q HQ HY. assert (0 <= Q * (S * h ^ 19)) by (apply Rmult_le_pos; assumption). lra. }
  split.
  - rewrite T0, T1.
    match goal with |- Rabs ?e <= _ => replace e with ((/ IZR DD * (z 0 * ysum v h w 0 wit0 h + z' 0 * ysum v h w 0 wit1 h) - z h) + (d0 * z 0 + d1 * z' 0)) by ring end.
    eapply Rle_trans; [apply Rabs_triang|].
    replace (K + (Dq 0%nat + Dq 1%nat + Dq 2%nat + Dq 3%nat)) with (K + ((Dq 0%nat + Dq 1%nat) + (Dq 2%nat + Dq 3%nat))) by ring.
    apply Hdrop; [lra|]. rewrite !Rmult_plus_distr_r in *. rewrite <- !Rmult_assoc in *. lra.
  - rewrite T2, T3.
    match goal with |- Rabs ?e <= _ => replace e with ((/ IZR DD * (z 0 * y1sum v h w 0 wit0 h + z' 0 * y1sum v h w 0 wit1 h) - z' h) + (d2 * z 0 + d3 * z' 0)) by ring end.
    eapply Rle_trans; [apply Rabs_triang|].
    replace (K + (Dq 0%nat + Dq 1%nat + Dq 2%nat + Dq 3%nat)) with (K + ((Dq 2%nat + Dq 3%nat) + (Dq 0%nat + Dq 1%nat))) by ring.
    apply Hdrop; [lra|]. rewrite !Rmult_plus_distr_r in *. rewrite <- !Rmult_assoc in *. lra.
Qed.
