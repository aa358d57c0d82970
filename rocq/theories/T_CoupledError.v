(** C82: the error estimate of coupled sectors (Matscs) and what the automatic builder does with it. *)
From Coq Require Import String QArith ZArith Floats Reals.
From Coquelicot Require Import Coquelicot.
From Coq Require Import List Bool Lia Lra Sorted.
From Verif Require Import Base M_Sectors S_Sectors S_Control S_Eta S_Formulas S_Coupled M_Core M_Eta M_Formulas M_CoupledData M_Coupled M_CoupledError
  P_Eta P_Coupled4 P_Error P_CoupledError T_Control.
Import ListNotations.
Open Scope R_scope.

(** ---- the estimate is the largest entry of the difference of the two formulas for a whole step, with the computed eta functions;
    in the difference every channel k is taken at its own energy, (v_0)_kk, the k-th entry of the diagonal matrix vs[0] *)
Theorem C82_largest_entry : forall n s, (0 < n)%nat -> let e := csector_error eta_code n s in
  let own (B : R -> CTm) q r k := cb (B (cs_vs s 0%nat k k)) q r k in
  let diff q := fun r k => own (cblocks_full eta_exact n s) q r k - own (fun E => cblocks_delta eta_exact n s E (cs_h s)) q r k in
  (forall q r k, (q < 4)%nat -> (r < n)%nat -> (k < n)%nat -> Rabs (unconj n (cs_Q s) (diff q) r k) <= e) /\
  (exists q r k, (q < 4)%nat /\ (r < n)%nat /\ (k < n)%nat /\ e = Rabs (unconj n (cs_Q s) (diff q) r k)).
Proof.
  intros n s Hn e own diff. unfold e. rewrite cerror_code.
  assert (forall q r k, cb (cerror_full eta_exact n s) q r k - cb (cerror_delta eta_exact n s) q r k = unconj n (cs_Q s) (diff q) r k) as D.
  { intros q r k. destruct (cerror_columns n s q r k) as [-> ->]. apply unconj_minus. }
  split.
  - intros q r k Hq Hr Hk. rewrite <- D. apply cerror_dominates; assumption.
  - destruct (cerror_attained eta_exact n s Hn) as (q & r & k & Hq & Hr & Hk & H). exists q, r, k. rewrite <- D. auto.
Qed.
(** if all channels have the same mean potential, vs[0] = v I, this is the difference of the two step matrices at the energy v *)
Theorem C82_common_energy : forall n s v, (forall k, (k < n)%nat -> cs_vs s 0%nat k k = v) ->
  forall q r k, (q < 4)%nat -> (r < n)%nat -> (k < n)%nat ->
  Rabs (cb (cstep_full eta_exact n s v) q r k - cb (cstep_delta eta_exact n s v (cs_h s)) q r k) <= csector_error eta_code n s.
Proof.
  intros n s v Hv q r k Hq Hr Hk. rewrite cerror_code. pose proof (cerror_dominates eta_exact n s q r k Hq Hr Hk) as H.
  destruct (cerror_columns n s q r k) as [E1 E2]. rewrite E1, E2 in H. unfold cstep_full, cstep_delta. rewrite !rebase_val.
  rewrite (unconj_ext n (cs_Q s) (cb (cblocks_full eta_exact n s v) q) (own_full n s q)), (unconj_ext n (cs_Q s) (cb (cblocks_delta eta_exact n s v (cs_h s)) q) (own_delta n s q)); [exact H| |];
    intros a b Ha Hb; unfold own_full, own_delta; rewrite Hv by exact Hb; reflexivity.
Qed.
(** never negative, 0 for a constant potential matrix *)
Theorem C82_constant : forall n s, 0 <= csector_error eta_code n s /\
  ((forall i a b, (1 <= i <= 8)%nat -> (a < n)%nat -> (b < n)%nat -> cs_vs s i a b = 0) -> csector_error eta_code n s = 0).
Proof. intros n s. split; [apply cerror_pos|]. intro H. rewrite cerror_code. apply cerror_constant, H. Qed.
(** of order h^9, up to rounding of the printed tables (coefficients at most 10^-10, of order h^6), uniformly over all sectors with
    bounded potential coefficients: V are the Legendre coefficients in the user's basis, Q the eigenvectors of V[0] *)
Theorem C82_order : forall n B, 0 <= B -> exists K, 0 <= K /\ forall V Q h d, orthogonal n Q ->
  (forall i a b, (i <= 8)%nat -> (a < n)%nat -> (b < n)%nat -> Rabs (V i a b) <= B) -> 0 <= h <= 1 ->
  csector_error eta_code n (make_csector n V Q h d) <= K * (h ^ 9 + h ^ 6 / 10 ^ 10).
Proof.
  intros n B HB. destruct (cerror_small n (INR n * (INR n * B))) as (K & HK & H).
  { repeat apply Rmult_le_pos; try apply pos_INR; exact HB. }
  exists K. split; [exact HK|]. intros V Q h d HQ HV Hh. rewrite cerror_code. apply (H (make_csector n V Q h d) HQ); [|exact Hh].
  intros i a b Hi Ha Hb. cbn [make_csector cs_vs]. unfold mscale. rewrite mmult_conj, Rabs_mult.
  assert (Rabs (if dir_eqb d Dbwd && Nat.odd i then -1 else 1) = 1) as ->.
  { destruct (dir_eqb d Dbwd && Nat.odd i); [rewrite Rabs_left; lra|apply Rabs_R1]. }
  rewrite Rmult_1_l. apply conj_bound; try assumption. intros j k Hj Hk. apply HV; assumption.
Qed.

(** ---- the builder (the payload of a sector of the builder is pay applied to its ends and direction).  Unless the tolerance is extremely small, a sector of the result has an estimate that does not exceed the
    tolerance or is the last of ten successive refinements of sectors that were all too coarse *)
Theorem C82_tolerance : forall n B, 0 <= B -> exists K, 0 <= K /\
  forall (V : R -> R -> nat -> mat) (Q : R -> R -> mat) cmp powf tol fuel jumps lo hi l m log,
  let pay a b d := make_csector n (V a b) (Q a b) (b - a) d in
  let err (s : sector R csector) := csector_error eta_code n (pay (smin s) (smax s) (sdir s)) in
  K / 10 ^ 27 <= tol -> (forall a b, orthogonal n (Q a b)) ->
  (forall a b i r c, (i <= 8)%nat -> (r < n)%nat -> (c < n)%nat -> Rabs (V a b i r c) <= B) ->
  auto_build pay err cmp powf tol fuel jumps lo hi = Ret (l, m, log) ->
  forall s, In s l -> smin s <= smax s ->
  err s <= tol \/
     exists ts : list (sector R csector), length ts = 10%nat /\ incl ts log /\ Forall (too_coarse err tol) ts /\ refinement_chain err powf tol ts s.
Proof.
  intros n B HB. destruct (C82_order n B HB) as (K & HK & H). exists (2 * K). split; [lra|].
  intros V Q cmp powf tol fuel jumps lo hi l m log pay err Ht HQ HV E s Hs Hle.
  destruct (C78_control pay err cmp powf tol fuel jumps lo hi l m log E s Hs) as (_ & [A|[A|A]]); [left| |right; exact A].
  - change (@slt R _) with Rltb in A. apply Rltb_false in A. exact A.
  - left. change (@slt R _) with Rltb in A. apply Rltb_false in A. change (smax s - smin s <= IZR 1 / IZR 1000) in A.
    unfold err, pay. set (h := smax s - smin s) in *.
    eapply Rle_trans; [apply (H _ _ h (sdir s)); [apply HQ|apply HV|unfold h in *; lra]|]. eapply Rle_trans; [|exact Ht].
    assert (0 <= h) as Hh by (unfold h; lra).
    assert (h ^ 9 <= / 10 ^ 27) as P9.
    { eapply Rle_trans; [apply pow_incr; split; [exact Hh|exact A]|]. right. replace (1 / 1000) with (/ 10 ^ 3) by (simpl; field). rewrite pow_inv, <- pow_mult. reflexivity. }
    assert (h ^ 6 <= / 10 ^ 18) as P6.
    { eapply Rle_trans; [apply pow_incr; split; [exact Hh|exact A]|]. right. replace (1 / 1000) with (/ 10 ^ 3) by (simpl; field). rewrite pow_inv, <- pow_mult. reflexivity. }
    assert (h ^ 6 / 10 ^ 10 <= / 10 ^ 27) as P6'.
    { unfold Rdiv. assert (0 < / 10 ^ 10) by (apply Rinv_0_lt_compat, pow_lt; lra).
      eapply Rle_trans; [apply Rmult_le_compat_r; [lra|exact P6]|]. rewrite <- Rinv_mult_distr by (apply pow_nonzero; lra). rewrite <- pow_add.
      apply Rinv_le_contravar; [apply pow_lt; lra|]. apply Rle_pow; [lra|lia]. }
    unfold Rdiv at 2. revert P9 P6'. generalize (h ^ 9) (h ^ 6 / 10 ^ 10) (/ 10 ^ 27). intros x y z Hx Hy. nra.
Qed.
(** potential matrices that are constant between the jumps: no sector boundaries but the jumps and the first meeting point *)
Theorem C82_pieces : forall n (V : R -> R -> nat -> mat) (Q : R -> R -> mat) cmp powf tol lo hi jumps fuel l m log,
  let pay a b d := make_csector n (V a b) (Q a b) (b - a) d in
  let err (s : sector R csector) := csector_error eta_code n (pay (smin s) (smax s) (sdir s)) in
  0 < tol -> (forall e, tol < e -> powf tol e <= 1) -> (forall e, 0 < e -> e < tol / 2 -> 1 <= powf tol e) ->
  lo < hi -> StronglySorted Rlt jumps -> (forall j, In j jumps -> lo < j < hi) ->
  (forall a b i r c, lo <= a -> a < b -> b <= hi -> (forall j, In j jumps -> ~ (a < j < b)) -> (1 <= i <= 8)%nat -> V a b i r c = 0) ->
  auto_build pay err cmp powf tol fuel jumps lo hi = Ret (l, m, log) ->
  (length l <= length jumps + 2)%nat /\
  forall s x, In s l -> x = smin s \/ x = smax s -> x = lo \/ x = 4956864123 / 10000000000 * hi + 5043135877 / 10000000000 * lo \/ x = hi \/ In x jumps.
Proof.
  intros n V Q cmp powf tol lo hi jumps fuel l m log pay err Ht A B C D E HV F.
  destruct (C78_pieces pay err cmp powf tol lo hi jumps fuel l m log Ht A B C D E) as (H1 & H2 & _); [|exact F|split; [exact H2|exact H1]].
  intros s Ha Hab Hb Hj. unfold err, pay. apply C82_constant. intros i r c Hi Hr Hc. cbn [make_csector cs_vs]. unfold mscale, mmult.
  assert (forall j, rsum n (fun k => mtr (Q (smin s) (smax s)) r k * V (smin s) (smax s) i k j) = 0) as Z.
  { intro j. rewrite (P_Terms2.rsum_ext n _ (fun _ => 0)); [apply P_Coupled2.rsum_zero|]. intros k _. rewrite HV by assumption. ring. }
  rewrite (P_Terms2.rsum_ext n _ (fun _ => 0)); [rewrite P_Coupled2.rsum_zero; ring|]. intros k _. rewrite Z. ring.
Qed.

(** ---- NaN estimates (IEEE doubles).  Matscs replaces a NaN estimate by infinity: it is then never accepted, unless the sector is at
    most 1e-3 wide or ten refinements have been made *)
Lemma guard_never_nan : forall x : float, PrimFloat.eqb (nan_guard infinity x) (nan_guard infinity x) = true.
Proof. intro x. unfold nan_guard. change (@seqb float _) with PrimFloat.eqb. destruct (PrimFloat.eqb x x) eqn:E; [exact E|reflexivity]. Qed.
Theorem C82_guarded {P : Type} : forall (pay : float -> float -> dir -> P) (e : sector float P -> float) cmp powf tol fuel jumps lo hi l m log,
  let err s := nan_guard infinity (e s) in PrimFloat.ltb tol infinity = true ->
  auto_build pay err cmp powf tol fuel jumps lo hi = Ret (l, m, log) ->
  forall s, In s l ->
    (PrimFloat.eqb (e s) (e s) = true /\ PrimFloat.ltb tol (e s) = false) \/ slt (sofQ (1 # 1000)) (ssub (smax s) (smin s)) = false \/
    exists ts : list (sector float P), length ts = 10%nat /\ incl ts log /\ Forall (too_coarse err tol) ts /\ refinement_chain err powf tol ts s.
Proof.
  intros pay e cmp powf tol fuel jumps lo hi l m log err Ht E s Hs.
  destruct (C78_control pay err cmp powf tol fuel jumps lo hi l m log E s Hs) as (_ & [A|[A|A]]); [left|right; left; exact A|right; right; exact A].
  unfold err, nan_guard in A. change (@seqb float _) with PrimFloat.eqb in A. change (@slt float _) with PrimFloat.ltb in A.
  destruct (PrimFloat.eqb (e s) (e s)) eqn:Q; [split; [reflexivity|exact A]|congruence].
Qed.
(** Refuted: the same for the scalar problem (Matslise), whose estimate has no such guard.  An estimate that is NaN is accepted
    immediately, whatever the tolerance: the two kinds of problems do not treat the same situation alike *)
Lemma ltb_nan : forall x : float, PrimFloat.ltb x nan = false.
Proof. intro x. rewrite FloatAxioms.ltb_spec. unfold SFltb. change (Prim2SF nan) with S754_nan. destruct (Prim2SF x) as [[]|[]| |[] m e]; reflexivity. Qed.
Lemma nan_ltb : forall x : float, PrimFloat.ltb nan x = false.
Proof. intro x. rewrite FloatAxioms.ltb_spec. unfold SFltb. change (Prim2SF nan) with S754_nan. reflexivity. Qed.
Section Unguarded.
Variable powf : float -> float -> float.
Let pay (a b : float) (d : dir) := tt.
Let err (s : sector float unit) : float := nan.
Lemma next_nan : forall tol h left right d log, next_sector pay err powf tol h left right d log = next_sector pay err powf 1%float h left right d log.
Proof.
  intros tol h left right d log. unfold next_sector.
  destruct d; cbv beta iota zeta;
  unfold shrink_loop, grow_loop; change (@slt float _) with PrimFloat.ltb; unfold err; rewrite !ltb_nan; cbn [andb bind Z.eqb]; rewrite !nan_ltb; reflexivity.
Qed.
Lemma loop_nan : forall tol cmp fuel lo hi fs bs f0 b0 hf hb fj bj log,
  auto_loop pay err cmp powf tol fuel lo hi fs bs f0 b0 hf hb fj bj log = auto_loop pay err cmp powf 1%float fuel lo hi fs bs f0 b0 hf hb fj bj log.
Proof.
  intros tol cmp. induction fuel as [|fuel IH]; intros; cbn [auto_loop]; [reflexivity|].
  destruct (seqb (smax f0) (smin b0)); [reflexivity|]. destruct (cmp b0 f0).
  - destruct (if seqb (smax f0) (next_fwd hi fj) then pop fj else Ret fj); cbn [bind]; try reflexivity. rewrite next_nan.
    destruct (next_sector pay err powf 1%float _ _ _ _ _) as [[[s h] lg]| | |]; cbn [bind]; try reflexivity. apply IH.
  - destruct (if seqb (smin b0) (next_bwd lo bj) then pop bj else Ret bj); cbn [bind]; try reflexivity. rewrite next_nan.
    destruct (next_sector pay err powf 1%float _ _ _ _ _) as [[[s h] lg]| | |]; cbn [bind]; try reflexivity. apply IH.
Qed.
Lemma build_nan : forall tol cmp fuel jumps lo hi,
  auto_build pay err cmp powf tol fuel jumps lo hi = auto_build pay err cmp powf 1%float fuel jumps lo hi.
Proof.
  intros. unfold auto_build. rewrite next_nan. destruct (next_sector pay err powf 1%float _ _ _ Dfwd _) as [[[s h] lg]| | |]; cbn [bind]; try reflexivity.
  rewrite next_nan. destruct (next_sector pay err powf 1%float _ _ _ Dbwd _) as [[[s' h'] lg']| | |]; cbn [bind]; try reflexivity. rewrite loop_nan. reflexivity.
Qed.
End Unguarded.
Theorem C82_unguarded_refuted : forall (tol : float) powf, let err (s : sector float unit) := nan in
  exists l m log, auto_build (fun _ _ _ => tt) err (fun _ _ => true) powf tol 10 [] 0%float 1%float = Ret (l, m, log) /\
    forall s, In s l -> PrimFloat.eqb (err s) (err s) = false /\ (smin s = 0%float -> PrimFloat.ltb 0.3 (smax s - smin s) = true).
Proof.
  intros tol powf err. unfold err. rewrite (build_nan powf tol).
  assert (exists r, auto_build (fun _ _ _ => tt) (fun _ : sector float unit => nan) (fun _ _ => true) powf 1%float 10 [] 0%float 1%float = Ret r /\
    forallb (fun s => if PrimFloat.eqb (smin s) 0 then PrimFloat.ltb 0.3 (smax s - smin s) else true) (fst (fst r)) = true) as (r & Hr & Hs).
  { eexists. split; [vm_compute; reflexivity|vm_compute; reflexivity]. }
  destruct r as [[l m] log]. exists l, m, log. split; [exact Hr|]. intros s Hin. split; [reflexivity|]. intro H0.
  rewrite forallb_forall in Hs. specialize (Hs s Hin). cbv beta in Hs. rewrite H0 in Hs at 1. exact Hs.
Qed.

(** Non-vacuity: the orthogonal identity, a 2 x 2 problem with constant potential [[1, 2], [2, 1]] on [0, 1/2], whose estimate is 0 *)
Example C82_instance : let V (i : nat) : mat := if (i =? 0)%nat then fun r c => if (r =? c)%nat then 1 else 2 else mzero in
  orthogonal 2 mid /\ (forall i r c, Rabs (V i r c) <= 2) /\ csector_error eta_code 2 (make_csector 2 V mid (1 / 2) Dfwd) = 0.
Proof.
  intro V. split; [|split].
  - intros a b Ha Hb. assert (a = 0 \/ a = 1)%nat as [-> | ->] by lia; assert (b = 0 \/ b = 1)%nat as [-> | ->] by lia; cbn; lra.
  - intros i r c. unfold V. destruct (i =? 0)%nat; [destruct (r =? c)%nat; rewrite Rabs_pos_eq; lra|unfold mzero; rewrite Rabs_R0; lra].
  - apply C82_constant. intros i a b Hi _ _. cbn [make_csector cs_vs]. unfold V. destruct (Nat.eqb_spec i 0); [lia|].
    unfold mscale, mmult, mzero, mtr, mid. cbn. ring.
Qed.
Print Assumptions C82_largest_entry.
Print Assumptions C82_common_energy.
Print Assumptions C82_constant.
Print Assumptions C82_order.
Print Assumptions C82_tolerance.
Print Assumptions C82_pieces.
Print Assumptions C82_guarded.
Print Assumptions C82_unguarded_refuted.
