(** Proofs about the error estimate of coupled sectors. *)
From Coq Require Import String QArith Qreals Reals ZArith Lra Lia.
From Coquelicot Require Import Coquelicot.
From Coq Require Import List Bool.
From Verif Require Import Base S_Eta P_Eta S_Legendre S_Formulas S_Coupled M_Sectors M_Core M_Eta M_Formulas M_CoupledData M_Coupled M_CoupledError
  P_Terms P_Terms2 P_Formulas P_Formulas2 P_Formulas3 P_Formulas4 P_WTerms P_Accuracy P_Coupled P_Coupled2 P_Coupled3 P_Coupled4 P_Error.
Import ListNotations.
Open Scope R_scope.

(** ---- maxima *)
Lemma max_ge : forall (l : list R) x, In x l -> x <= fold_right Rmax 0 l.
Proof.
  induction l as [|a l IH]; intros x H; [destruct H|]. cbn [fold_right]. destruct H as [->|H]; [apply Rmax_l|].
  eapply Rle_trans; [apply IH, H|apply Rmax_r].
Qed.
Lemma max_le : forall (l : list R) M, 0 <= M -> (forall x, In x l -> x <= M) -> fold_right Rmax 0 l <= M.
Proof.
  induction l as [|a l IH]; intros M HM H; [exact HM|]. cbn [fold_right]. apply Rmax_lub; [apply H; left; reflexivity|].
  apply IH; [exact HM|]. intros x Hx. apply H. right. exact Hx.
Qed.
Lemma max_pos : forall l : list R, 0 <= fold_right Rmax 0 l.
Proof. induction l as [|a l IH]; [apply Rle_refl|]. cbn [fold_right]. eapply Rle_trans; [exact IH|apply Rmax_r]. Qed.
Lemma max_in : forall l : list R, (forall x, In x l -> 0 <= x) -> l <> [] -> In (fold_right Rmax 0 l) l.
Proof.
  induction l as [|a l IH]; intros H Hl; [congruence|]. cbn [fold_right]. destruct l as [|b l].
  - cbn [fold_right]. rewrite Rmax_left by (apply H; left; reflexivity). left. reflexivity.
  - unfold Rmax at 1. destruct (Rle_dec a (fold_right Rmax 0 (b :: l))) as [L|L]; [right|left; reflexivity].
    apply IH; [intros x Hx; apply H; right; exact Hx|discriminate].
Qed.
Lemma centries_in : forall n q r k, In (q, r, k) (centries n) <-> (q < 4)%nat /\ (r < n)%nat /\ (k < n)%nat.
Proof.
  intros n q r k. unfold centries. rewrite in_flat_map. split.
  - intros (q' & Hq & H). apply in_flat_map in H. destruct H as (r' & Hr & H). apply in_map_iff in H. destruct H as (k' & E & Hk).
    injection E as -> -> ->. apply in_seq in Hq, Hr, Hk. lia.
  - intros (Hq & Hr & Hk). exists q. split; [apply in_seq; lia|]. apply in_flat_map. exists r. split; [apply in_seq; lia|].
    apply in_map_iff. exists k. split; [reflexivity|apply in_seq; lia].
Qed.

(** ---- the estimate is the largest entry *)
Section Estimate.
Variable etaf : nat -> R -> list R.
Variable n : nat.
Lemma cerror_dominates : forall s q r k, (q < 4)%nat -> (r < n)%nat -> (k < n)%nat ->
  Rabs (cb (cerror_full etaf n s) q r k - cb (cerror_delta etaf n s) q r k) <= csector_error etaf n s.
Proof.
  intros s q r k Hq Hr Hk. unfold csector_error. apply max_ge. apply in_map_iff. exists (q, r, k). split; [reflexivity|].
  apply centries_in. auto.
Qed.
Lemma cerror_attained : forall s, (0 < n)%nat -> exists q r k, (q < 4)%nat /\ (r < n)%nat /\ (k < n)%nat /\
  csector_error etaf n s = Rabs (cb (cerror_full etaf n s) q r k - cb (cerror_delta etaf n s) q r k).
Proof.
  intros s Hn. set (l := map (fun e : nat * nat * nat => let '(q, r, k) := e in Rabs (cb (cerror_full etaf n s) q r k - cb (cerror_delta etaf n s) q r k)) (centries n)).
  assert (In (fold_right Rmax 0 l) l) as H.
  { apply max_in.
    - intros x Hx. apply in_map_iff in Hx. destruct Hx as ([[q r] k] & <- & _). apply Rabs_pos.
    - intro E. apply map_eq_nil in E. assert (In (0%nat, 0%nat, 0%nat) (centries n)) as Q by (apply centries_in; lia). rewrite E in Q. destruct Q. }
  apply in_map_iff in H. destruct H as ([[q r] k] & E & Hin). apply centries_in in Hin. exists q, r, k. destruct Hin as (A & B & C). rewrite E. auto.
Qed.
Lemma cerror_pos : forall s, 0 <= csector_error etaf n s.
Proof. intro s. apply max_pos. Qed.
Lemma cerror_below : forall s M, 0 <= M ->
  (forall q r k, (q < 4)%nat -> (r < n)%nat -> (k < n)%nat -> Rabs (cb (cerror_full etaf n s) q r k - cb (cerror_delta etaf n s) q r k) <= M) ->
  csector_error etaf n s <= M.
Proof.
  intros s M HM H. unfold csector_error. apply max_le; [exact HM|]. intros x Hx. apply in_map_iff in Hx. destruct Hx as ([[q r] k] & <- & Hin).
  apply centries_in in Hin. apply H; apply Hin.
Qed.
End Estimate.

(** the computed eta functions are exact at 0 *)
Lemma blocks_0 : forall n m coeff delta q r k, (k < n)%nat ->
  cb (blocksVEd eta_code n m coeff delta (fun _ => 0)) q r k = cb (blocksVEd eta_exact n m coeff delta (fun _ => 0)) q r k.
Proof. intros n m coeff delta q r k Hk. unfold blocksVEd. cbn [cb]. rewrite Rmult_0_l, eta_code_0. reflexivity. Qed.
Lemma rebase_val : forall n Q t q a b, cb (rebase n Q t) q a b = unconj n Q (cb t q) a b.
Proof. intros. unfold rebase. cbn [cb]. apply mmult_unconj. Qed.
Lemma cerror_code : forall n s, csector_error eta_code n s = csector_error eta_exact n s.
Proof.
  intros n s. unfold csector_error. f_equal. apply map_ext_in. intros [[q r] k] Hin.
  unfold cerror_full, cerror_delta. rewrite !rebase_val.
  rewrite (unconj_ext n (cs_Q s) (cb (blocksVEd eta_code n CETA_h (fun q i => ctcoeff_h n (cs_vs s) (cs_h s) q i) (cs_h s) (fun _ => 0)) q)
             (cb (blocksVEd eta_exact n CETA_h (fun q i => ctcoeff_h n (cs_vs s) (cs_h s) q i) (cs_h s) (fun _ => 0)) q)) by (intros; apply blocks_0; assumption).
  rewrite (unconj_ext n (cs_Q s) (cb (blocksVEd eta_code n CETA_delta (fun q i => mhorner (ctcoeff n (cs_vs s) (cs_h s) q i) (cs_h s) CHMAX_delta) (cs_h s) (fun _ => 0)) q)
             (cb (blocksVEd eta_exact n CETA_delta (fun q i => mhorner (ctcoeff n (cs_vs s) (cs_h s) q i) (cs_h s) CHMAX_delta) (cs_h s) (fun _ => 0)) q)) by (intros; apply blocks_0; assumption).
  reflexivity.
Qed.

(** an entry of column k depends on the energy of its own channel only: VEd = 0 is, for column k, the energy (v_0)_kk *)
Lemma blocks_column : forall n m coeff delta V1 V2 q r k, (r < n)%nat -> (k < n)%nat -> V1 k = V2 k ->
  cb (blocksVEd eta_exact n m coeff delta V1) q r k = cb (blocksVEd eta_exact n m coeff delta V2) q r k.
Proof.
  intros n m coeff delta V1 V2 q r k Hr Hk E. unfold blocksVEd. cbn [cb]. rewrite !macc_val by assumption. rewrite E. f_equal.
  unfold mdiag. destruct (q =? 2)%nat; [|reflexivity]. destruct (Nat.eqb_spec r k) as [->|]; [rewrite E|]; reflexivity.
Qed.
Definition own_full (n : nat) (s : csector) (q r k : nat) : R := cb (cblocks_full eta_exact n s (cs_vs s 0%nat k k)) q r k.
Definition own_delta (n : nat) (s : csector) (q r k : nat) : R := cb (cblocks_delta eta_exact n s (cs_vs s 0%nat k k) (cs_h s)) q r k.
Lemma cerror_columns : forall n s q a b, cb (cerror_full eta_exact n s) q a b = unconj n (cs_Q s) (own_full n s q) a b /\
  cb (cerror_delta eta_exact n s) q a b = unconj n (cs_Q s) (own_delta n s q) a b.
Proof.
  intros n s q a b. unfold cerror_full, cerror_delta. rewrite !rebase_val. split; apply unconj_ext; intros j k Hj Hk; unfold own_full, own_delta, cblocks_full, cblocks_delta; (apply blocks_column; [exact Hj|exact Hk|]); unfold VEd_of; ring.
Qed.
Lemma unconj_minus : forall n Q A B a b, unconj n Q A a b - unconj n Q B a b = unconj n Q (fun r k => A r k - B r k) a b.
Proof.
  intros n Q A B a b. unfold unconj.
  replace (rsum n (fun j => rsum n (fun k => Q a j * A j k * Q b k)) - rsum n (fun j => rsum n (fun k => Q a j * B j k * Q b k)))
    with (rsum n (fun j => rsum n (fun k => Q a j * A j k * Q b k)) + (-1) * rsum n (fun j => rsum n (fun k => Q a j * B j k * Q b k))) by ring.
  rewrite <- rsum_scal, <- rsum_plus. apply rsum_ext. intros j _. rewrite <- rsum_scal, <- rsum_plus. apply rsum_ext. intros k _. ring.
Qed.

(** ---- bounds *)
Lemma rsum_bound : forall n (f : nat -> R) M, (forall i, (i < n)%nat -> Rabs (f i) <= M) -> Rabs (rsum n f) <= INR n * M.
Proof.
  induction n as [|n IH]; intros f M H; [cbn; rewrite Rabs_R0; lra|]. cbn [rsum]. rewrite S_INR.
  eapply Rle_trans; [apply Rabs_triang|]. pose proof (IH f M ltac:(intros; apply H; lia)). pose proof (H n ltac:(lia)). lra.
Qed.
Lemma unconj_bound : forall n Q A M a b, 0 <= M -> orthogonal n Q -> (a < n)%nat -> (b < n)%nat ->
  (forall j k, (j < n)%nat -> (k < n)%nat -> Rabs (A j k) <= M) -> Rabs (unconj n Q A a b) <= INR n * (INR n * M).
Proof.
  intros n Q A M a b HM HQ Ha Hb H.
  assert (forall i j, (i < n)%nat -> (j < n)%nat -> Rabs (Q i j) <= 1) as HQ1.
  { intros i j Hi Hj. pose proof (proj2 (HQ i i Hi Hi)) as S. rewrite Nat.eqb_refl in S.
    assert (forall m, (m <= n)%nat -> forall l, (l < m)%nat -> Q i l * Q i l <= rsum m (fun k => Q i k * Q i k)) as P.
    { induction m as [|m IH]; intros Hm l Hl; [lia|]. cbn [rsum].
      assert (0 <= rsum m (fun k => Q i k * Q i k)) as G by (clear; induction m as [|m IH]; cbn [rsum]; [lra|nra]).
      destruct (Nat.eq_dec l m) as [->|Hne]; [lra|]. pose proof (IH ltac:(lia) l ltac:(lia)). nra. }
    specialize (P n (Nat.le_refl n) j Hj). rewrite S in P. apply Rabs_le. nra. }
  unfold unconj. apply rsum_bound. intros j Hj. apply rsum_bound. intros k Hk. rewrite !Rabs_mult.
  pose proof (HQ1 a j Ha Hj). pose proof (HQ1 b k Hb Hk). pose proof (H j k Hj Hk).
  pose proof (Rabs_pos (Q a j)). pose proof (Rabs_pos (Q b k)). pose proof (Rabs_pos (A j k)).
  assert (Rabs (Q a j) * Rabs (A j k) <= 1 * M) by (apply Rmult_le_compat; assumption).
  assert (Rabs (Q a j) * Rabs (A j k) * Rabs (Q b k) <= 1 * M * 1) by (apply Rmult_le_compat; try assumption; apply Rmult_le_pos; assumption). lra.
Qed.
Lemma word_bound : forall n vs B, 0 <= B -> (forall i r c, (i <= 8)%nat -> (r < n)%nat -> (c < n)%nat -> Rabs (vs i r c) <= B) ->
  forall w, forallb (fun k => (k <=? 8)%nat) w = true -> forall r c, (r < n)%nat -> (c < n)%nat -> Rabs (word_val n vs w r c) <= (INR n * B) ^ List.length w.
Proof.
  intros n vs B HB H. induction w as [|k w IH]; intros Hw r c Hr Hc.
  - cbn. destruct (r =? c)%nat; [rewrite Rabs_R1|rewrite Rabs_R0]; lra.
  - cbn [forallb] in Hw. apply andb_prop in Hw. destruct Hw as [Hk Hw]. apply Nat.leb_le in Hk. cbn [word_val List.length pow].
    rewrite Rmult_assoc. apply rsum_bound. intros j Hj. rewrite Rabs_mult.
    apply Rmult_le_compat; try apply Rabs_pos; [apply H; assumption|apply IH; assumption].
Qed.
Definition letters (m : wmonomial) : Prop := forallb (fun k => (k <=? 8)%nat) (w_word m) = true.
(** a sum of monomials of order 9, or of order 6 with tiny coefficients *)
Lemma wpoly_small : forall n B, 0 <= B -> forall p, (forall m, In m p -> small_or 9 6 m /\ letters m) -> exists K, 0 <= K /\
  forall vs h r c, (forall i r c, (i <= 8)%nat -> (r < n)%nat -> (c < n)%nat -> Rabs (vs i r c) <= B) -> 0 <= h <= 1 -> (r < n)%nat -> (c < n)%nat ->
  Rabs (wpoly_val n vs h h p r c) <= K * (h ^ 9 + h ^ 6 / 10 ^ 10).
Proof.
  intros n B HB. induction p as [|m p IH]; intro Hp.
  - exists 0. split; [lra|]. intros. cbn. rewrite Rabs_R0. lra.
  - destruct IH as (K & HK & IH); [intros m' Hm'; apply Hp; right; exact Hm'|].
    destruct (Hp m (or_introl eq_refl)) as [Hs Hl]. set (X := (INR n * B) ^ List.length (w_word m)).
    assert (0 <= X) as HX by (apply pow_le, Rmult_le_pos; [apply pos_INR|exact HB]).
    exists ((Rabs (w_coef m) + 1) * X + K). pose proof (Rabs_pos (w_coef m)) as Hc. split; [nra|].
    intros vs h r c Hv Hh Hr Hc'. cbn [wpoly_val fold_right]. fold (wpoly_val n vs h h p r c).
    eapply Rle_trans; [apply Rabs_triang|]. rewrite Rmult_plus_distr_r. apply Rplus_le_compat; [|apply IH; assumption].
    unfold wmono_val. rewrite !Rabs_mult.
    pose proof (word_bound n vs B HB Hv (w_word m) Hl r c Hr Hc') as HW. fold X in HW.
    assert (Rabs (h ^ w_delta m) * Rabs (h ^ w_h m) = h ^ worder m) as EP.
    { unfold worder. rewrite pow_add, !Rabs_pos_eq by (apply pow_le; lra). reflexivity. }
    rewrite (Rmult_assoc (Rabs (w_coef m))), EP.
    assert (forall i j, (i <= j)%nat -> h ^ j <= h ^ i) as PD.
    { intros i j Hij. replace j with (i + (j - i))%nat by lia. rewrite pow_add. rewrite <- (Rmult_1_r (h ^ i)) at 2.
      apply Rmult_le_compat_l; [apply pow_le; lra|]. apply (pow_le_1 h). exact Hh. }
    pose proof (pow_le h 9 (proj1 Hh)) as P9. pose proof (pow_le h 6 (proj1 Hh)) as P6. pose proof (pow_le h (worder m) (proj1 Hh)) as PW.
    pose proof (Rabs_pos (word_val n vs (w_word m) r c)) as PV.
    assert (0 < / 10 ^ 10) as PT by (apply Rinv_0_lt_compat, pow_lt; lra).
    assert (Rabs (w_coef m) * h ^ worder m <= (Rabs (w_coef m) + 1) * (h ^ 9 + h ^ 6 / 10 ^ 10)) as Q.
    { unfold Rdiv. destruct Hs as [Hs|[Hs Hsm]].
      - pose proof (PD 9%nat _ Hs). assert (0 <= h ^ 6 * / 10 ^ 10) by (apply Rmult_le_pos; lra).
        apply Rmult_le_compat; lra.
      - pose proof (PD 6%nat _ Hs). assert (Rabs (w_coef m) * h ^ worder m <= / 10 ^ 10 * h ^ 6) by (apply Rmult_le_compat; lra).
        assert (0 <= h ^ 6 * / 10 ^ 10) by (apply Rmult_le_pos; lra). nra. }
    replace ((Rabs (w_coef m) + 1) * X * (h ^ 9 + h ^ 6 / 10 ^ 10)) with ((Rabs (w_coef m) + 1) * (h ^ 9 + h ^ 6 / 10 ^ 10) * X) by ring.
    apply Rmult_le_compat; try assumption. apply Rmult_le_pos; assumption.
Qed.
Lemma wfd_letters : forallb (fun q => forallb (forallb small_word) (wfd q)) (seq 0 4) = true. Proof. vm_cast_no_check (eq_refl true). Qed.
Lemma wfd_small : forall q i m, (q < 4)%nat -> In m (wpolys (wfd q) i) -> small_or 9 6 m /\ letters m.
Proof.
  intros q i m Hq Hm. split.
  - pose proof wcheck_full as H. rewrite forallb_forall in H. apply (wpolys_ok 9 6 (wfd q) (H q ltac:(apply in_seq; lia)) i m Hm).
  - pose proof wfd_letters as H. rewrite forallb_forall in H. specialize (H q ltac:(apply in_seq; lia)). rewrite forallb_forall in H.
    unfold wpolys in Hm. apply in_map_iff in Hm. destruct Hm as ([c a b l] & <- & Ht). unfold letters. cbn [to_wmono w_word].
    destruct (Nat.lt_ge_cases i (List.length (wfd q))) as [Hi|Hi].
    + specialize (H _ (nth_In (wfd q) [] Hi)). rewrite forallb_forall in H. apply (H _ Ht).
    + rewrite nth_overflow in Ht by exact Hi. destruct Ht.
Qed.
(** one block, in the basis of the sector *)
Lemma own_small : forall n B, 0 <= B -> exists K, 0 <= K /\ forall s q r c, (q < 4)%nat -> (r < n)%nat -> (c < n)%nat ->
  (forall i r c, (i <= 8)%nat -> (r < n)%nat -> (c < n)%nat -> Rabs (cs_vs s i r c) <= B) -> 0 <= cs_h s <= 1 ->
  Rabs (own_full n s q r c - own_delta n s q r c) <= K * (cs_h s ^ 9 + cs_h s ^ 6 / 10 ^ 10).
Proof.
  intros n B HB.
  assert (forall q i, (q < 4)%nat -> exists K, 0 <= K /\ forall s r c, (r < n)%nat -> (c < n)%nat ->
    (forall i r c, (i <= 8)%nat -> (r < n)%nat -> (c < n)%nat -> Rabs (cs_vs s i r c) <= B) -> 0 <= cs_h s <= 1 ->
    Rabs (wpoly_val n (cs_vs s) (cs_h s) (cs_h s) (wpolys (wfd q) i) r c * eta i 0) <= K * (cs_h s ^ 9 + cs_h s ^ 6 / 10 ^ 10)) as H1.
  { intros q i Hq. destruct (wpoly_small n B HB (wpolys (wfd q) i)) as (K & HK & H); [intros m Hm; apply (wfd_small q i m Hq Hm)|].
    exists (K * Rabs (eta i 0)). split; [apply Rmult_le_pos; [exact HK|apply Rabs_pos]|]. intros s r c Hr Hc Hv Hh. rewrite Rabs_mult.
    replace (K * Rabs (eta i 0) * (cs_h s ^ 9 + cs_h s ^ 6 / 10 ^ 10)) with (K * (cs_h s ^ 9 + cs_h s ^ 6 / 10 ^ 10) * Rabs (eta i 0)) by ring.
    apply Rmult_le_compat_r; [apply Rabs_pos|]. apply H; assumption. }
  assert (forall q N, (q < 4)%nat -> exists K, 0 <= K /\ forall s r c, (r < n)%nat -> (c < n)%nat ->
    (forall i r c, (i <= 8)%nat -> (r < n)%nat -> (c < n)%nat -> Rabs (cs_vs s i r c) <= B) -> 0 <= cs_h s <= 1 ->
    Rabs (rsum N (fun i => wpoly_val n (cs_vs s) (cs_h s) (cs_h s) (wpolys (wfd q) i) r c * eta i 0)) <= K * (cs_h s ^ 9 + cs_h s ^ 6 / 10 ^ 10)) as H2.
  { intros q N Hq. induction N as [|N (K & HK & IH)].
    - exists 0. split; [lra|]. intros. cbn [rsum]. rewrite Rabs_R0. lra.
    - destruct (H1 q N Hq) as (K' & HK' & H'). exists (K + K'). split; [lra|]. intros s r c Hr Hc Hv Hh. cbn [rsum].
      eapply Rle_trans; [apply Rabs_triang|]. rewrite Rmult_plus_distr_r. apply Rplus_le_compat; [apply IH|apply H']; assumption. }
  assert (forall q, (q < 4)%nat -> exists K, 0 <= K /\ forall s r c, (r < n)%nat -> (c < n)%nat ->
    (forall i r c, (i <= 8)%nat -> (r < n)%nat -> (c < n)%nat -> Rabs (cs_vs s i r c) <= B) -> 0 <= cs_h s <= 1 ->
    Rabs (own_full n s q r c - own_delta n s q r c) <= K * (cs_h s ^ 9 + cs_h s ^ 6 / 10 ^ 10)) as H3.
  { intros q Hq. destruct (H2 q 6%nat Hq) as (K & HK & H). exists K. split; [exact HK|]. intros s r c Hr Hc Hv Hh.
    unfold own_full, own_delta. rewrite (cfull_vs_partial n s (cs_vs s 0%nat c c) q Hq r c Hr Hc).
    replace ((cs_vs s 0%nat c c - cs_vs s 0%nat c c) * (cs_h s * cs_h s)) with 0 by ring.
    match goal with |- Rabs (?x + ?y - ?x) <= _ => replace (x + y - x) with y by ring end. apply H; assumption. }
  destruct (H3 0%nat ltac:(lia)) as (K0 & P0 & G0). destruct (H3 1%nat ltac:(lia)) as (K1 & P1 & G1).
  destruct (H3 2%nat ltac:(lia)) as (K2 & P2 & G2). destruct (H3 3%nat ltac:(lia)) as (K3 & P3 & G3).
  exists (K0 + K1 + K2 + K3). split; [lra|]. intros s q r c Hq Hr Hc Hv Hh.
  assert (0 <= cs_h s ^ 9 + cs_h s ^ 6 / 10 ^ 10) as PX.
  { pose proof (pow_le (cs_h s) 9 (proj1 Hh)). pose proof (pow_le (cs_h s) 6 (proj1 Hh)).
    assert (0 < / 10 ^ 10) by (apply Rinv_0_lt_compat, pow_lt; lra). unfold Rdiv. assert (0 <= cs_h s ^ 6 * / 10 ^ 10) by (apply Rmult_le_pos; lra). lra. }
  specialize (G0 s r c Hr Hc Hv Hh). specialize (G1 s r c Hr Hc Hv Hh). specialize (G2 s r c Hr Hc Hv Hh). specialize (G3 s r c Hr Hc Hv Hh).
  revert G0 G1 G2 G3 PX. generalize (cs_h s ^ 9 + cs_h s ^ 6 / 10 ^ 10). intros X G0 G1 G2 G3 PX.
  assert (0 <= K0 * X /\ 0 <= K1 * X /\ 0 <= K2 * X /\ 0 <= K3 * X) as (Y0 & Y1 & Y2 & Y3) by (repeat split; apply Rmult_le_pos; assumption).
  destruct q as [|[|[|[|q]]]]; [| | | |lia]; lra.
Qed.
Lemma cerror_small : forall n B, 0 <= B -> exists K, 0 <= K /\ forall s, orthogonal n (cs_Q s) ->
  (forall i r c, (i <= 8)%nat -> (r < n)%nat -> (c < n)%nat -> Rabs (cs_vs s i r c) <= B) -> 0 <= cs_h s <= 1 ->
  csector_error eta_exact n s <= K * (cs_h s ^ 9 + cs_h s ^ 6 / 10 ^ 10).
Proof.
  intros n B HB. destruct (own_small n B HB) as (K & HK & H). exists (INR n * (INR n * K)). pose proof (pos_INR n) as Pn.
  split; [apply Rmult_le_pos; [exact Pn|apply Rmult_le_pos; assumption]|]. intros s HQ Hv Hh.
  assert (0 <= cs_h s ^ 9 + cs_h s ^ 6 / 10 ^ 10) as PX.
  { pose proof (pow_le (cs_h s) 9 (proj1 Hh)). pose proof (pow_le (cs_h s) 6 (proj1 Hh)).
    assert (0 < / 10 ^ 10) by (apply Rinv_0_lt_compat, pow_lt; lra). unfold Rdiv. assert (0 <= cs_h s ^ 6 * / 10 ^ 10) by (apply Rmult_le_pos; lra). lra. }
  specialize (H s). revert H PX. generalize (cs_h s ^ 9 + cs_h s ^ 6 / 10 ^ 10). intros X H PX.
  apply cerror_below; [repeat (apply Rmult_le_pos; try assumption)|]. intros q r c Hq Hr Hc.
  destruct (cerror_columns n s q r c) as [-> ->]. rewrite unconj_minus.
  replace (INR n * (INR n * K) * X) with (INR n * (INR n * (K * X))) by ring.
  apply unconj_bound; try assumption; [apply Rmult_le_pos; assumption|]. intros j k Hj Hk. apply (H q j k Hq Hj Hk Hv Hh).
Qed.
Lemma conj_bound : forall n Q A M a b, 0 <= M -> orthogonal n Q -> (a < n)%nat -> (b < n)%nat ->
  (forall j k, (j < n)%nat -> (k < n)%nat -> Rabs (A j k) <= M) -> Rabs (conj n Q A a b) <= INR n * (INR n * M).
Proof.
  intros n Q A M a b HM HQ Ha Hb H. change (conj n Q A a b) with (unconj n (fun i j => Q j i) A a b). apply unconj_bound; try assumption.
  intros i j Hi Hj. destruct (HQ i j Hi Hj). split; assumption.
Qed.

(** ---- constant potentials *)
Lemma cerror_constant : forall n s, (forall i a b, (1 <= i <= 8)%nat -> (a < n)%nat -> (b < n)%nat -> cs_vs s i a b = 0) -> csector_error eta_exact n s = 0.
Proof.
  intros n s Hv. apply Rle_antisym; [|apply cerror_pos]. apply cerror_below; [apply Rle_refl|]. intros q r c Hq Hr Hc.
  destruct (cerror_columns n s q r c) as [-> ->]. rewrite (unconj_ext n (cs_Q s) (own_full n s q) (own_delta n s q)).
  - rewrite Rminus_eq_0, Rabs_R0. apply Rle_refl.
  - intros j k Hj Hk. unfold own_full, own_delta. destruct (cconstant n s (cs_vs s 0%nat k k) Hv q Hq j k (cs_h s) Hj Hk) as [-> ->]. reflexivity.
Qed.
