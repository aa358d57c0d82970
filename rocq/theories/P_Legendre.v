(** The Legendre tables: linear functionals with rational matrices, checked by computation in Q. *)
From Coq Require Import String ZArith QArith Qabs Qreals Reals Bool Lia Lra.
From Coquelicot Require Import Coquelicot.
From Coq Require Import List.
From Verif Require Import Base M_LegendreData M_Sectors M_Legendre S_Poly P_Poly P_Eval S_Legendre.
Import ListNotations.
Open Scope R_scope.

(** ** sums with a coefficient list *)
Fixpoint wsum (m : nat) (c : list R) (g : nat -> R) : R :=
  match c with [] => 0 | x :: r => x * g m + wsum (S m) r g end.
Lemma wsum_minus m c g g' : wsum m c g - wsum m c g' = wsum m c (fun k => g k - g' k).
Proof. revert m. induction c; simpl; intros; [lra|]. rewrite <- IHc. lra. Qed.
Lemma wsum_scale m c g k : k * wsum m c g = wsum m c (fun i => k * g i).
Proof. revert m. induction c; simpl; intros; [lra|]. rewrite <- IHc. lra. Qed.
Lemma wsum_plus m c g g' : wsum m c g + wsum m c g' = wsum m c (fun k => g k + g' k).
Proof. revert m. induction c; simpl; intros; [lra|]. rewrite <- IHc. lra. Qed.
Lemma wsum_ext m c g g' : (forall k, (m <= k < m + length c)%nat -> g k = g' k) -> wsum m c g = wsum m c g'.
Proof. revert m. induction c; simpl; intros; auto. rewrite H by lia. f_equal. apply IHc. intros; apply H; lia. Qed.
Lemma wsum_zero m c : wsum m c (fun _ => 0) = 0.
Proof. revert m. induction c; simpl; intros; [lra|]. rewrite IHc. lra. Qed.
Lemma wsum_bound m c g e : (forall k, (m <= k < m + length c)%nat -> Rabs (g k) <= e) -> Rabs (wsum m c g) <= e * norm1 c.
Proof.
  revert m. induction c as [|x r IH]; intros m H; unfold norm1 in *; simpl in *; [rewrite Rabs_R0; lra|].
  eapply Rle_trans; [apply Rabs_triang|]. rewrite Rabs_mult.
  specialize (IH (S m)). specialize (H m) as H0. 
  assert (Rabs (wsum (S m) r g) <= e * sumR (map Rabs r)) by (apply IH; intros; apply H; lia).
  assert (Rabs (g m) <= e) by (apply H0; lia). pose proof (Rabs_pos x). nra.
Qed.
Lemma wsum_poly m c t : wsum m c (fun k => t ^ k) = t ^ m * polyval c t.
Proof.
  revert m. induction c as [|x r IH]; intros m; simpl; [rewrite polyval_nil; lra|].
  rewrite IH, polyval_cons. simpl. ring.
Qed.
Lemma poly_wsum c t : polyval c t = wsum 0 c (fun k => t ^ k).
Proof. rewrite wsum_poly. simpl. ring. Qed.
(** exchange of a finite sum and wsum *)
Lemma wsum_sum {A} m c (l : list A) (g : A -> nat -> R) :
  sumR (map (fun a => wsum m c (g a)) l) = wsum m c (fun k => sumR (map (fun a => g a k) l)).
Proof. induction l as [|a l IH]; simpl; [now rewrite wsum_zero|]. now rewrite IH, wsum_plus. Qed.

(** ** integrals of polynomials over [0,1] *)
Fixpoint mint (m : nat) (d : list R) : R := match d with [] => 0 | x :: r => x / INR (m + 1) + mint (S m) r end.
Lemma pow_RInt m : is_RInt (fun t => t ^ m) 0 1 (/ INR (m + 1)).
Proof.
  assert (Nz : INR (m + 1) <> 0) by (apply not_0_INR; lia).
  evar_last; [apply (is_RInt_derive (fun t => / INR (m + 1) * t ^ (m + 1)) (fun t => t ^ m))|].
  - intros x _. evar_last; [apply (is_derive_mono (/ INR (m + 1)) (m + 1) x)|].
    replace (Nat.pred (m + 1)) with m by lia. field. auto.
  - intros x _. apply (@ex_derive_continuous R_AbsRing R_NormedModule (fun t => t ^ m)). auto_derive; auto.
  - unfold minus, plus, opp; simpl. rewrite pow1, pow_i by lia. ring.
Qed.
Lemma mint_RInt m d : is_RInt (fun t => t ^ m * polyval d t) 0 1 (mint m d).
Proof.
  revert m. induction d as [|x r IH]; intros m; simpl.
  - evar_last; [apply (is_RInt_ext (fun _ => 0)); [intros; rewrite polyval_nil; now rewrite Rmult_0_r|apply (is_RInt_const 0 1 0)]|].
    unfold scal; simpl; unfold mult; simpl. ring.
  - apply (is_RInt_ext (fun t => plus (scal x (t ^ m)) (t ^ S m * polyval r t))).
    { intros t _. rewrite polyval_cons. unfold plus, scal; simpl; unfold mult; simpl. ring. }
    apply (is_RInt_plus (fun t => scal x (t ^ m)) (fun t => t ^ S m * polyval r t)); [|apply IH].
    apply (is_RInt_scal (fun t => t ^ m)). apply pow_RInt.
Qed.
Lemma prod_RInt m c d : is_RInt (fun t => (t ^ m * polyval c t) * polyval d t) 0 1 (wsum m c (fun k => mint k d)).
Proof.
  revert m. induction c as [|x r IH]; intros m; simpl.
  - evar_last; [apply (is_RInt_ext (fun _ => 0)); [intros; rewrite polyval_nil; match goal with |- ?a = ?b => change (@eq R a b) end; ring|apply (is_RInt_const 0 1 0)]|].
    unfold scal; simpl; unfold mult; simpl. ring.
  - apply (is_RInt_ext (fun t => plus (scal x (t ^ m * polyval d t)) ((t ^ S m * polyval r t) * polyval d t))).
    { intros t _. rewrite polyval_cons. unfold plus, scal; simpl; unfold mult; simpl. ring. }
    apply (is_RInt_plus (fun t => scal x (t ^ m * polyval d t)) (fun t => (t ^ S m * polyval r t) * polyval d t)); [|apply IH].
    apply (is_RInt_scal (fun t => t ^ m * polyval d t)). apply mint_RInt.
Qed.
Lemma projection_poly i c : projection i (polyval c) = wsum 0 c (fun k => INR (2 * i + 1) * mint k (map Q2R (shifted_leg i))).
Proof.
  unfold projection. rewrite <- wsum_scale. f_equal. apply is_RInt_unique.
  apply (is_RInt_ext (fun t => (t ^ 0 * polyval c t) * legendre_fun i t)); [intros; simpl; ring|].
  apply (prod_RInt 0 c).
Qed.

(** ** rational versions *)
Fixpoint mintQ (m : nat) (d : list Q) : Q :=
  match d with [] => 0%Q | x :: r => Qred (x / inject_Z (Z.of_nat (m + 1)) + mintQ (S m) r) end.
Lemma Q2R_red q : Q2R (Qred q) = Q2R q.
Proof. apply Qeq_eqR, Qred_correct. Qed.
Lemma Q2R_Z z : Q2R (inject_Z z) = IZR z.
Proof. unfold Q2R, inject_Z; simpl. lra. Qed.
Lemma inj_nz m : ~ (inject_Z (Z.of_nat (m + 1)) == 0)%Q.
Proof. unfold Qeq; simpl. lia. Qed.
Lemma mintQ_R m d : Q2R (mintQ m d) = mint m (map Q2R d).
Proof.
  revert m. induction d as [|x r IH]; intros m; cbn [mintQ mint map]; [unfold Q2R; simpl; lra|].
  rewrite Q2R_red, Q2R_plus, IH, Q2R_div by apply inj_nz. rewrite Q2R_Z, <- INR_IZR_INZ. auto.
Qed.
Definition SC : Z := 10 ^ 24.
Lemma SC_pos : 0 < IZR SC. Proof. apply IZR_lt. reflexivity. Qed.
Opaque SC.
(** a table entry as an integer over 10^24 *)
Definition zq (q : Q) : Z := (Qnum q * (SC / Zpos (Qden q)))%Z.
Definition zq_ok (q : Q) : bool := (zq q * Zpos (Qden q) =? Qnum q * SC)%Z.
Lemma zq_R q : zq_ok q = true -> Q2R q = IZR (zq q) / IZR SC.
Proof.
  unfold zq_ok. intros H. apply Z.eqb_eq in H. unfold Q2R.
  assert (IZR SC <> 0) by (pose proof SC_pos; lra). assert (IZR (Zpos (Qden q)) <> 0) by (apply not_0_IZR; discriminate).
  apply (f_equal IZR) in H. rewrite !mult_IZR in H.
  apply Rmult_eq_reg_r with (IZR SC); auto. apply Rmult_eq_reg_r with (IZR (Zpos (Qden q))); auto.
  transitivity (IZR (Qnum q) * IZR SC); [field; auto|]. rewrite <- H. field; auto.
Qed.
Definition zdot (ws ps : list Z) : Z := fold_right (fun p acc => fst p * snd p + acc)%Z 0%Z (combine ws ps).
(** moment of the i-th weight row against t^m, t = (1 + node) / 2 *)
Definition mom (k i m : nat) : R :=
  sumR (map (fun p => Q2R (fst p) * ((1 + Q2R (snd p)) / 2) ^ m) (combine (nth i (weights k) []) (nodes k))).
(** fixed-point powers of u/(2 SC): numerators over SC, each step rounded down *)
Definition astep (us P : list Z) : list Z := map (fun q => (snd q * fst q) / (2 * SC))%Z (combine us P).
Definition approx (m : nat) (us P : list Z) : Prop :=
  Forall2 (fun u p => (0 <= p <= SC)%Z /\ Rabs (IZR p / IZR SC - (IZR u / (2 * IZR SC)) ^ m) <= INR m / IZR SC) us P.
Definition urange (u : Z) : bool := ((0 <=? u) && (u <=? 2 * SC))%Z.
Lemma approx_0 us : approx 0 us (map (fun _ => SC) us).
Proof.
  induction us as [|u us IH]; constructor; auto. pose proof SC_pos as S. split; [split; [apply le_IZR; lra|lia]|].
  rewrite pow_O. replace (IZR SC / IZR SC - 1) with 0 by (field; lra). rewrite Rabs_R0. simpl. lra.
Qed.
Lemma pow_unit t m : 0 <= t <= 1 -> 0 <= t ^ m <= 1.
Proof. intros H. induction m; simpl; [lra|]. nra. Qed.
Lemma astep_real (s p u r : R) m : 0 < s -> 0 <= u <= 2 * s -> 2 * s * r <= p * u < 2 * s * (r + 1) ->
  Rabs (p / s - (u / (2 * s)) ^ m) <= INR m / s -> Rabs (r / s - (u / (2 * s)) ^ S m) <= INR (S m) / s.
Proof.
  intros S U Hr C. set (t := u / (2 * s)) in *. set (q := p / s) in *.
  assert (T : 0 <= t <= 1).
  { unfold t. split; [apply Rdiv_le_0_compat; lra|]. apply Rmult_le_reg_r with (2 * s); [lra|]. unfold Rdiv. rewrite Rmult_assoc, Rinv_l by lra. lra. }
  assert (E : q * t - / s <= r / s <= q * t).
  { assert (q * t = p * u * / (2 * s * s)) as -> by (unfold q, t; field; lra).
    replace (r / s) with (2 * s * r * / (2 * s * s)) by (field; lra).
    replace (/ s) with (2 * s * / (2 * s * s)) at 1 by (field; lra).
    assert (D : 0 < / (2 * s * s)) by (apply Rinv_0_lt_compat; repeat apply Rmult_lt_0_compat; lra).
    set (d := / (2 * s * s)) in *. clearbody d. split; [|apply Rmult_le_compat_r; lra].
    replace (p * u * d - 2 * s * d) with ((p * u - 2 * s) * d) by ring. apply Rmult_le_compat_r; lra. }
  apply Rabs_le_between in C. apply Rabs_le. rewrite S_INR. cbn [pow]. unfold Rdiv in *. 
  set (d := / s) in *. assert (0 < d) by (apply Rinv_0_lt_compat; auto). pose proof (pos_INR m) as M.
  assert (0 <= INR m * d) by (apply Rmult_le_pos; lra). set (md := INR m * d) in *. set (tm := t ^ m) in *. set (x := r * d) in *.
  replace ((INR m + 1) * d) with (md + d) by (unfold md; ring). clearbody md tm x t q d.
  assert (t * (q - tm) <= md) by (apply Rle_trans with (t * md); [apply Rmult_le_compat_l; lra|nra]).
  assert (- md <= t * (q - tm)) by (apply Rle_trans with (t * - md); [nra|apply Rmult_le_compat_l; lra]). lra.
Qed.
Lemma approx_S m us P : forallb urange us = true -> approx m us P -> approx (S m) us (astep us P).
Proof.
  intros H A. induction A as [|u p us P [B C] A IH]; [constructor|].
  cbn [forallb] in H. apply andb_prop in H as [H1 H2]. unfold urange in H1. apply andb_prop in H1 as [U0 U1].
  apply Z.leb_le in U0, U1. constructor; [|apply IH; auto]. cbn [fst snd].
  pose proof SC_pos as S. assert (S' : (0 < SC)%Z) by (apply lt_IZR; auto).
  set (sc := SC) in *. clearbody sc. clear IH.
  set (r := (p * u / (2 * sc))%Z).
  assert (R0 : (2 * sc * r <= p * u)%Z) by (apply Z.mul_div_le; lia).
  assert (R1 : (p * u < 2 * sc * (r + 1))%Z) by (rewrite Z.add_1_r; apply Z.mul_succ_div_gt; lia).
  split.
  - split; [apply Z.div_pos; nia|]. apply Z.div_le_upper_bound; nia.
  - clearbody r. apply (astep_real (IZR sc) (IZR p)); auto.
    + split; [now apply IZR_le|]. rewrite <- mult_IZR. now apply IZR_le.
    + rewrite <- plus_IZR, <- !mult_IZR. split; [now apply IZR_le|now apply IZR_lt].
Qed.
Lemma approx_len m us P : approx m us P -> length us = length P.
Proof. induction 1; simpl; auto. Qed.
Definition zabs (ws : list Z) : Z := fold_right (fun w acc => Z.abs w + acc)%Z 0%Z ws.

Lemma mom_Z k i m P : forallb zq_ok (nodes k) = true -> forallb zq_ok (nth i (weights k) []) = true ->
  approx m (map (fun q => SC + zq q)%Z (nodes k)) P ->
  Rabs (mom k i m - IZR (zdot (map zq (nth i (weights k) [])) P) / (IZR SC * IZR SC)) <= INR m * IZR (zabs (map zq (nth i (weights k) []))) / (IZR SC * IZR SC).
Proof.
  unfold mom, zdot. pose proof SC_pos as S. generalize (nodes k) as ns. revert P. induction (nth i (weights k) []) as [|w ws IH]; intros P ns Hn Hw A.
  - cbn. unfold sumR; simpl. match goal with |- Rabs ?x <= ?y => replace x with 0 by (field; lra); replace y with 0 by (field; lra) end. rewrite Rabs_R0. lra.
  - destruct ns as [|q ns]; inversion A as [|u p us P' [B C] A']; subst.
    + cbn [combine map fold_right zabs]. unfold sumR; simpl. match goal with |- Rabs ?x <= ?y => replace x with 0 by (field; lra) end. rewrite Rabs_R0.
      apply Rdiv_le_0_compat; [|apply Rmult_lt_0_compat; lra]. apply Rmult_le_pos; [apply pos_INR|]. apply IZR_le.
      assert (G : forall l, (0 <= zabs l)%Z) by (induction l; simpl; lia). pose proof (G (map zq ws)). unfold zabs in *. lia.
    + cbn [forallb] in Hn, Hw. apply andb_prop in Hn as [N1 N2], Hw as [W1 W2]. specialize (IH P' ns N2 W2 A').
      cbn [combine map fold_right fst snd]. 
      match goal with |- context [sumR (?x :: ?l)] => change (sumR (x :: l)) with (x + sumR l) end.
      unfold zabs in *. cbn [map fold_right]. set (rest := fold_right _ _ _) in *. clearbody rest.
      set (zb := fold_right (fun w acc => (Z.abs w + acc)%Z) 0%Z (map zq ws)) in *. clearbody zb. set (sm := sumR _) in *. clearbody sm.
      rewrite !plus_IZR, (mult_IZR (zq w)), abs_IZR. rewrite plus_IZR in C.
      assert (Et : (1 + Q2R q) / 2 = (IZR SC + IZR (zq q)) / (2 * IZR SC)) by (rewrite (zq_R q N1); field; lra). rewrite Et.
      rewrite (zq_R w W1). set (t := ((IZR SC + IZR (zq q)) / (2 * IZR SC)) ^ m) in *. clearbody t.
      set (a := IZR (zq w)) in *. clearbody a. set (s := IZR SC) in *. clearbody s.
      replace (a / s * t + sm - (a * IZR p + IZR rest) / (s * s)) with (- (a / s * (IZR p / s - t)) + (sm - IZR rest / (s * s))) by (field; lra).
      replace (INR m * (Rabs a + IZR zb) / (s * s)) with (Rabs a / s * (INR m / s) + INR m * IZR zb / (s * s)) by (field; lra).
      eapply Rle_trans; [apply Rabs_triang|]. apply Rplus_le_compat; [|exact IH].
      rewrite Rabs_Ropp, Rabs_mult. apply Rmult_le_compat; auto using Rabs_pos. right. unfold Rdiv. rewrite Rabs_mult, (Rabs_inv s), (Rabs_right s) by lra. auto.
Qed.

Lemma dot_sum (ws fs : list R) : dot ws fs = sumR (map (fun p => fst p * snd p) (combine ws fs)).
Proof.
  unfold dot. destruct (combine ws fs) as [|[w f] r]; [reflexivity|]. simpl.
  assert (G : forall a, fold_left (fun acc p => acc + fst p * snd p) r a = a + sumR (map (fun p => fst p * snd p) r)).
  { induction r as [|x r IH]; intros a; simpl; [lra|]. rewrite IH. lra. }
  exact (G (w * f)).
Qed.
Lemma combine_map {A B C D} (f : A -> C) (g : B -> D) a b : combine (map f a) (map g b) = map (fun p => (f (fst p), g (snd p))) (combine a b).
Proof. revert b. induction a; intros [|y b]; simpl; auto. now rewrite IHa. Qed.

(** the quadrature as a sum over (weight, node) pairs *)
Lemma integrate_sum n (f : R -> R) a b i :
  integrate false n f a b i =
  sumR (map (fun p => Q2R (fst p) * f ((a + b) / 2 + Q2R (snd p) * ((b - a) / 2))) (combine (nth i (weights (kof n)) []) (nodes (kof n)))).
Proof.
  unfold integrate. rewrite dot_sum. unfold weight_row, leg_fs, eval_points. rewrite map_map, combine_map, map_map.
  apply sumR_ext. intros [w q] _. reflexivity.
Qed.
Lemma integrate_poly n c a b i : a <> b ->
  integrate false n (fun x => polyval c ((x - a) / (b - a))) a b i = wsum 0 c (mom (kof n) i).
Proof.
  intros N. rewrite integrate_sum.
  transitivity (sumR (map (fun p => wsum 0 c (fun m => Q2R (fst p) * ((1 + Q2R (snd p)) / 2) ^ m)) (combine (nth i (weights (kof n)) []) (nodes (kof n))))).
  - apply sumR_ext. intros [w q] _. cbn [fst snd]. rewrite <- wsum_scale, <- poly_wsum. f_equal. f_equal. field. lra.
  - rewrite wsum_sum. reflexivity.
Qed.

(** ** the checks *)
Definition projQ (i m : nat) : Q := Qred (inject_Z (Z.of_nat (2 * i + 1)) * mintQ m (shifted_leg i)).
Lemma projQ_R i m : Q2R (projQ i m) = INR (2 * i + 1) * mint m (map Q2R (shifted_leg i)).
Proof. unfold projQ. rewrite Q2R_red, Q2R_mult, Q2R_Z, mintQ_R, <- INR_IZR_INZ. auto. Qed.

(** tolerance of the n-point formulas, in units of 10^-19 *)
Definition tol (n : nat) : Z := if (n <=? 12)%nat then 170%Z else if (n <=? 16)%nat then 12000%Z else 72000%Z.
Definition row_ok (k m : nat) (P : list Z) (iW : nat * list Z) : bool :=
  let pr := projQ (fst iW) m in
  let e := Zpos (Qden pr) in
  let d := (2 ^ Z.of_nat (fst iW) * e)%Z in
  ((Z.abs (zdot (snd iW) P * d - Qnum pr * (SC * SC)) + Z.of_nat m * zabs (snd iW) * d) * 10 ^ 19 <=? tol k * (SC * SC * e))%Z.
Fixpoint dev_rows (k : nat) (us : list Z) (Ws : list (nat * list Z)) (P : list Z) (m cnt : nat) : bool :=
  match cnt with
  | O => true
  | S c => forallb (row_ok k m P) Ws && dev_rows k us Ws (astep us P) (S m) c
  end.
Definition dev_check (k : nat) : bool :=
  forallb zq_ok (nodes k) && forallb (forallb zq_ok) (weights k) && (length (weights k) =? k)%nat &&
  (let us := map (fun q => SC + zq q)%Z (nodes k) in
   forallb urange us && dev_rows k us (combine (seq 0 k) (map (map zq) (weights k))) (map (fun _ => SC) us) 0 k).
Lemma dev_checks : forallb dev_check [2;4;6;8;10;12;14;16;18]%nat = true.
Proof. vm_cast_no_check (eq_refl true). Qed.

Lemma dev_rows_spec k us Ws : forallb urange us = true -> forall cnt m0 P, approx m0 us P -> dev_rows k us Ws P m0 cnt = true ->
  forall m, (m0 <= m < m0 + cnt)%nat -> exists P', approx m us P' /\ forallb (row_ok k m P') Ws = true.
Proof.
  intros U. induction cnt as [|c IH]; intros m0 P A H m Hm; [lia|]. cbn [dev_rows] in H. apply andb_prop in H as [H1 H2].
  destruct (Nat.eq_dec m m0) as [->|N]; [exists P; auto|]. apply (IH (S m0) (astep us P)); auto; [apply approx_S; auto|lia].
Qed.

Lemma kof_in n : (1 <= n <= 18)%nat -> In (kof n) [2;4;6;8;10;12;14;16;18]%nat /\ (n <= kof n)%nat /\ tol (kof n) = tol n.
Proof.
  intros H. do 19 (destruct n as [|n]; [lia || (split; [vm_compute; auto 20|split; [vm_compute; lia|reflexivity]])|]). lia.
Qed.
Lemma dev_bound n i m : (1 <= n <= 18)%nat -> (i < n)%nat -> (m < n)%nat ->
  Rabs (2 ^ i * mom (kof n) i m - INR (2 * i + 1) * mint m (map Q2R (shifted_leg i))) <= IZR (tol n) / 10 ^ 19.
Proof.
  intros Hn Hi Hm. destruct (kof_in n Hn) as [I [L T]]. rewrite <- T. pose proof dev_checks as A. rewrite forallb_forall in A.
  specialize (A _ I). generalize dependent (kof n). intros k I L T A.
  unfold dev_check in A. apply andb_prop in A as [A A4]. cbv zeta in A4. apply andb_prop in A4 as [A4 A5].
  apply andb_prop in A as [A A3]. apply andb_prop in A as [A1 A2]. apply Nat.eqb_eq in A3.
  destruct (dev_rows_spec _ _ _ A4 k 0%nat _ (approx_0 _) A5 m) as [P [Ap B]]; [lia|]. clear A5.
  rewrite forallb_forall in B. specialize (B (i, map zq (nth i (weights k) []))).
  assert (In (i, map zq (nth i (weights k) [])) (combine (seq 0 k) (map (map zq) (weights k)))) as Hin.
  { assert (Hc : nth i (combine (seq 0 k) (map (map zq) (weights k))) (0%nat, map zq []) = (i, map zq (nth i (weights k) []))).
    { rewrite combine_nth by (rewrite seq_length, map_length; lia). rewrite seq_nth by lia. now rewrite (map_nth (map zq)). }
    rewrite <- Hc. apply nth_In. rewrite combine_length, seq_length, map_length. lia. }
  specialize (B Hin). clear Hin.
  assert (A2' : forallb zq_ok (nth i (weights k) []) = true).
  { rewrite forallb_forall in A2. apply A2. apply nth_In. lia. }
  pose proof (mom_Z k i m P A1 A2' Ap) as M. clear A4 Ap A1 A2 A2'.
  unfold row_ok in B. cbn [fst snd] in B. rewrite <- projQ_R. apply Z.leb_le, IZR_le in B.
  set (W := zdot _ _) in *. clearbody W. set (pr := projQ i m) in *. clearbody pr. set (za := zabs _) in *. clearbody za.
  rewrite !mult_IZR, plus_IZR, abs_IZR, minus_IZR, !mult_IZR, <- INR_IZR_INZ in B. change (10 ^ 19)%Z with (10 ^ Z.of_nat 19)%Z in B. rewrite <- !pow_IZR in B.
  unfold Q2R. set (e := IZR (Zpos (Qden pr))) in *. assert (0 < e) by (apply IZR_lt; reflexivity).
  set (d := 2 ^ i) in *. assert (0 < d) by (apply pow_lt; lra).
  pose proof SC_pos as S. set (D := IZR SC * IZR SC) in *. assert (0 < D) by (apply Rmult_lt_0_compat; auto).
  assert (T19 : 0 < 10 ^ 19) by (apply pow_lt; lra).
  set (mo := mom k i m) in *. clearbody mo D d e. set (x := IZR W) in *. set (nn := IZR (Qnum pr)) in *. set (zz := IZR za) in *. clearbody x nn zz.
  assert (0 < D * e) by (apply Rmult_lt_0_compat; auto).
  replace (d * mo - nn * / e) with (d * (mo - x / D) + (x * (d * e) - nn * D) / (D * e)) by (field; lra).
  eapply Rle_trans; [apply Rabs_triang|].
  rewrite Rabs_mult, (Rabs_right d) by lra. unfold Rdiv at 2. rewrite Rabs_mult, (Rabs_inv (D * e)), (Rabs_right (D * e)) by lra.
  apply Rle_trans with (d * (INR m * zz / D) + Rabs (x * (d * e) - nn * D) * / (D * e)).
  { apply Rplus_le_compat_r. apply Rmult_le_compat_l; lra. }
  apply Rmult_le_reg_r with (D * e); auto. apply Rmult_le_reg_r with (10 ^ 19); auto.
  replace ((d * (INR m * zz / D) + Rabs (x * (d * e) - nn * D) * / (D * e)) * (D * e) * 10 ^ 19)
    with ((Rabs (x * (d * e) - nn * D) + INR m * zz * (d * e)) * 10 ^ 19) by (field; lra).
  eapply Rle_trans; [exact B|]. right. field.
Qed.

(** ** |P_i| <= 1 on [0,1], by expansion in Chebyshev polynomials with nonnegative coefficients *)
Lemma qadd_R p q t : polyval (map Q2R (qadd p q)) t = polyval (map Q2R p) t + polyval (map Q2R q) t.
Proof.
  revert q. induction p as [|a p IH]; intros [|b q]; cbn [qadd map]; rewrite ?polyval_nil, ?polyval_cons; try lra.
  rewrite IH, Q2R_red, Q2R_plus. ring.
Qed.
Lemma qscale_R c p t : polyval (map Q2R (qscale c p)) t = Q2R c * polyval (map Q2R p) t.
Proof.
  unfold qscale. induction p as [|a p IH]; cbn [map]; rewrite ?polyval_nil, ?polyval_cons; [lra|].
  rewrite IH, Q2R_red, Q2R_mult. ring.
Qed.
Lemma qshift_R p t : polyval (map Q2R (qshift p)) t = t * polyval (map Q2R p) t.
Proof. unfold qshift. cbn [map]. rewrite polyval_cons. replace (Q2R 0) with 0 by (unfold Q2R; simpl; lra). ring. Qed.

(** (T_k, T_{k+1}) on [0,1] *)
Fixpoint cheb_pair (k : nat) : list Q * list Q :=
  match k with
  | O => ([1%Q], [(-1)%Q; 2%Q])
  | S j => let (p, c) := cheb_pair j in (c, qadd (qscale 2 (qadd (qscale 2 (qshift c)) (qscale (-1) c))) (qscale (-1) p))
  end.
Definition cheb (k : nat) : list Q := fst (cheb_pair k).
Lemma Q2R_num (z : Z) : Q2R (z # 1) = IZR z. Proof. unfold Q2R; simpl. lra. Qed.
Lemma cheb_pair_cos k x : let t := (1 + cos x) / 2 in
  polyval (map Q2R (fst (cheb_pair k))) t = cos (INR k * x) /\ polyval (map Q2R (snd (cheb_pair k))) t = cos (INR (S k) * x).
Proof.
  cbv zeta. induction k as [|k IH].
  - cbn [cheb_pair fst snd map]. rewrite !polyval_cons, !polyval_nil, !Q2R_num. simpl INR. rewrite Rmult_0_l, cos_0, Rmult_1_l. split; lra.
  - cbn [cheb_pair]. destruct (cheb_pair k) as [p c]. cbn [fst snd] in *. destruct IH as [I1 I2]. split; auto.
    rewrite qadd_R, !qscale_R, qadd_R, !qscale_R, qshift_R, I1, I2, !Q2R_num.
    replace (INR (S (S k)) * x) with (INR (S k) * x + x) by (rewrite !S_INR; ring).
    replace (INR k * x) with (INR (S k) * x - x) by (rewrite !S_INR; ring).
    rewrite cos_plus, cos_minus. lra.
Qed.
Lemma cheb_cos k x : polyval (map Q2R (cheb k)) ((1 + cos x) / 2) = cos (INR k * x).
Proof. apply cheb_pair_cos. Qed.

(** a_m = binom(2m, m) / 4^m *)
Fixpoint am (m : nat) : Q := match m with O => 1%Q | S j => Qred (am j * (inject_Z (Z.of_nat (2 * j + 1)) / inject_Z (Z.of_nat (2 * j + 2)))) end.
Definition absdiff (i m : nat) : nat := (i - m + (m - i))%nat.
Definition coefs_i (i : nat) : list (Q * nat) := map (fun m => (Qred (am m * am (i - m)), absdiff i (2 * m))) (seq 0 (S i)).
Definition comb (l : list (Q * nat)) : list Q := fold_right (fun p acc => qadd (qscale (fst p) (cheb (snd p))) acc) [] l.
Fixpoint qeql (p q : list Q) : bool :=
  match p, q with [], [] => true | a :: p', b :: q' => Qeq_bool a b && qeql p' q' | _, _ => false end.
Lemma qeql_R p q : qeql p q = true -> map Q2R p = map Q2R q.
Proof.
  revert q. induction p as [|a p IH]; intros [|b q]; cbn [qeql map]; try discriminate; auto.
  intros H. apply andb_prop in H as [H1 H2]. f_equal; auto. apply Qeq_eqR, Qeq_bool_iff; auto.
Qed.
Definition leg_check (i : nat) : bool :=
  qeql (comb (coefs_i i)) (shifted_leg i) && forallb (fun p => Qle_bool 0 (fst p)) (coefs_i i) &&
  Qeq_bool (fold_right (fun p acc => Qred (fst p + acc)) 0%Q (coefs_i i)) 1.
Lemma leg_checks : forallb leg_check (seq 0 18) = true.
Proof. vm_compute. reflexivity. Qed.

Lemma comb_bound l t : 0 <= t <= 1 -> forallb (fun p => Qle_bool 0 (fst p)) l = true ->
  Rabs (polyval (map Q2R (comb l)) t) <= Q2R (fold_right (fun p acc => Qred (fst p + acc)) 0%Q l).
Proof.
  intros Ht. assert (exists x, t = (1 + cos x) / 2) as [x ->].
  { exists (acos (2 * t - 1)). rewrite cos_acos by lra. lra. }
  induction l as [|[q k] l IH]; intros H.
  - cbn [comb fold_right map]. rewrite polyval_nil, Rabs_R0. unfold Q2R; simpl; lra.
  - cbn [forallb] in H. apply andb_prop in H as [H1 H2]. specialize (IH H2).
    cbn [comb fold_right fst snd] in *. fold (comb l). rewrite Q2R_red, Q2R_plus, qadd_R, qscale_R, cheb_cos.
    apply Qle_bool_iff, Qle_Rle in H1. cbn [fst] in H1. replace (Q2R 0) with 0 in H1 by (unfold Q2R; simpl; lra).
    eapply Rle_trans; [apply Rabs_triang|]. apply Rplus_le_compat; auto.
    rewrite Rabs_mult, (Rabs_right (Q2R q)) by lra. rewrite <- (Rmult_1_r (Q2R q)) at 2.
    apply Rmult_le_compat_l; auto. apply Rabs_le. destruct (COS_bound (INR k * x)). lra.
Qed.
Lemma legendre_bound i t : (i < 18)%nat -> 0 <= t <= 1 -> Rabs (legendre_fun i t) <= 1.
Proof.
  intros Hi Ht. pose proof leg_checks as A. rewrite forallb_forall in A. specialize (A i ltac:(apply in_seq; lia)).
  unfold leg_check in A. apply andb_prop in A as [A A3]. apply andb_prop in A as [A1 A2].
  unfold legendre_fun. rewrite <- (qeql_R _ _ A1). eapply Rle_trans; [apply comb_bound; auto|].
  apply Qeq_bool_iff, Qeq_eqR in A3. rewrite A3. unfold Q2R; simpl; lra.
Qed.

(** ** monomials in the Legendre basis *)
Definition mono_comb (n m : nat) : list Q := fold_right (fun i acc => qadd (qscale (projQ i m) (shifted_leg i)) acc) [] (seq 0 n).
Fixpoint is_mono (p : list Q) (m : nat) : bool :=
  match p, m with
  | [], _ => false
  | a :: r, O => Qeq_bool a 1 && forallb (fun b => Qeq_bool b 0) r
  | a :: r, S k => Qeq_bool a 0 && is_mono r k
  end.
Lemma is_mono_R p m t : is_mono p m = true -> polyval (map Q2R p) t = t ^ m.
Proof.
  revert m. induction p as [|a p IH]; intros m H; [discriminate|]. cbn [map]. rewrite polyval_cons.
  destruct m as [|m]; cbn [is_mono] in H; apply andb_prop in H as [H1 H2]; apply Qeq_bool_iff, Qeq_eqR in H1; rewrite H1.
  - assert (polyval (map Q2R p) t = 0) as ->.
    { clear -H2. induction p as [|b p IH]; [apply polyval_nil|]. cbn [forallb] in H2. apply andb_prop in H2 as [A B].
      cbn [map]. rewrite polyval_cons, IH by auto. apply Qeq_bool_iff, Qeq_eqR in A. rewrite A. unfold Q2R; simpl; lra. }
    unfold Q2R; simpl; lra.
  - rewrite (IH m H2). unfold Q2R; simpl; lra.
Qed.
Lemma mono_checks : forallb (fun n => forallb (fun m => is_mono (mono_comb n m) m) (seq 0 n)) (seq 1 18) = true.
Proof. vm_cast_no_check (eq_refl true). Qed.
Lemma mono_expand n m t : (1 <= n <= 18)%nat -> (m < n)%nat ->
  t ^ m = sumR (map (fun i => INR (2 * i + 1) * mint m (map Q2R (shifted_leg i)) * legendre_fun i t) (seq 0 n)).
Proof.
  intros Hn Hm. pose proof mono_checks as A. rewrite forallb_forall in A. specialize (A n ltac:(apply in_seq; lia)).
  rewrite forallb_forall in A. specialize (A m ltac:(apply in_seq; lia)). rewrite <- (is_mono_R _ _ t A). clear A.
  unfold mono_comb. induction (seq 0 n) as [|i l IH]; [apply polyval_nil|].
  cbn [fold_right map]. rewrite qadd_R, qscale_R, projQ_R, IH. reflexivity.
Qed.

(** ** asPolynomial *)
Definition table_ok : bool := forallb (fun i => qeql (firstn (S i) (map inject_Z (nth i shifted_legendre []))) (shifted_leg i)
   && forallb (fun z => (z =? 0)%Z) (skipn (S i) (nth i shifted_legendre [])) && (length (nth i shifted_legendre []) =? 16)%nat) (seq 0 16).
Lemma table_checked : table_ok = true. Proof. vm_compute. reflexivity. Qed.
