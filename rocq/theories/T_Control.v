(** C78: the local error estimate of a sector and the step size control of the automatic builder. *)
From Coq Require Import String ZArith QArith Qreals Reals.
From Coquelicot Require Import Coquelicot.
From Coq Require Import List Bool Lia Lra Sorted.
From Verif Require Import Base M_Sectors S_Sectors S_Control M_Core M_Legendre S_Poly S_Legendre P_Legendre T_Legendre M_Eta M_Formulas S_Formulas P_Auto P_AutoR T_Sectors P_Control P_Control2 P_Error.
Import ListNotations.
Open Scope R_scope.

(** ---- the estimate (Sector::error, order 16), with the computed eta functions *)
(** it dominates the difference between the two formulas for a whole step, at the reference energy vs[0] *)
Theorem C78_dominates : forall s : sector R (list R), let v k := nth k (spay s) 0 in let h := sh s in / 10 ^ 12 < h ->
  let F := step_full eta_code v h (v 0%nat) in let D := step_delta eta_code v h (v 0%nat) h in let e := sector_error eta_code s in
  calculateT_h eta_code s (v 0%nat) true = F /\ calculateT_h eta_code s (v 0%nat) false = D /\
  Rabs (t00 F - t00 D) <= e /\ Rabs (t01 F - t01 D) <= h * e /\ h * Rabs (t10 F - t10 D) <= e /\ Rabs (t11 F - t11 D) <= e.
Proof.
  intros s v h Hh F D e. split; [reflexivity|]. split; [|apply error_dominates; exact Hh].
  unfold calculateT_h, calculateT. fold h. destruct (Rleb (Rabs h) EPS12) eqn:Q; [|reflexivity]. exfalso. apply Rleb_true in Q. unfold EPS12 in Q.
  rewrite Rabs_pos_eq in Q; [lra|]. eapply Rle_trans; [|apply Rlt_le; exact Hh]. apply Rlt_le, Rinv_0_lt_compat, pow_lt; lra.
Qed.
(** it is never negative, and 0 for a constant potential *)
Theorem C78_constant : forall s : sector R (list R), let v k := nth k (spay s) 0 in
  0 <= sector_error eta_code s /\
  (/ 10 ^ 12 < sh s -> (forall k, (1 <= k <= 15)%nat -> v k = 0) -> sector_error eta_code s = 0).
Proof. intros s v. split; [apply error_ge_0|]. intros Hh Hv. rewrite error_code. apply error_constant; assumption. Qed.
(** it is of order h^12, uniformly over all sectors with bounded coefficients *)
Theorem C78_order : forall B, 0 <= B -> exists K, 0 <= K /\ forall s : sector R (list R), let v k := nth k (spay s) 0 in
  (forall k, (1 <= k <= 15)%nat -> Rabs (v k) <= B) -> / 10 ^ 12 < sh s <= 1 -> sector_error eta_code s <= K * sh s ^ 12.
Proof.
  intros B HB. destruct (error_small B HB) as (K & HK & H). exists K. split; [exact HK|]. intros s v Hv Hh. rewrite error_code. apply H; assumption.
Qed.

(** ---- the control, for every scalar type (IEEE doubles included), error estimate, comparison and power function:
    a sector of the result has an estimate that does not exceed the tolerance, or it is at most 1e-3 wide, or it is the last
    of ten successive refinements of sectors that were all too coarse *)
Theorem C78_control {T : Type} `{Scalar T} {P : Type} : forall (pay : T -> T -> dir -> P) err cmp powf tol fuel jumps lo hi l m log,
  auto_build pay err cmp powf tol fuel jumps lo hi = Ret (l, m, log) ->
  forall s, In s l -> In s log /\
    (slt tol (err s) = false \/ slt (sofQ (1 # 1000)) (ssub (smax s) (smin s)) = false \/
     exists ts : list (sector T P), length ts = 10%nat /\ incl ts log /\ Forall (too_coarse err tol) ts /\ refinement_chain err powf tol ts s).
Proof.
  intros pay err cmp powf tol fuel jumps lo hi l m log E s Hs. apply build_control in E. rewrite Forall_forall in E.
  destruct (E s Hs) as [A [B|(ts & B1 & B2 & B3 & B4)]]; split; auto.
  - destruct (slt tol (err s)) eqn:Q; [|auto]. right; left. destruct (slt _ (ssub (smax s) (smin s))) eqn:Q2; [|auto]. exfalso. apply B. split; auto.
  - right; right. exists ts. auto.
Qed.
(** over the reals, with the sector coefficients bounded by B: unless the tolerance is extremely small, the second case
    does not occur for sectors wider than 1e-12 *)
Theorem C78_tolerance : forall B, 0 <= B -> exists K, 0 <= K /\
  forall (pay : R -> R -> dir -> list R) cmp powf tol fuel jumps lo hi l m log, K / 10 ^ 36 <= tol ->
  auto_build pay (sector_error eta_code) cmp powf tol fuel jumps lo hi = Ret (l, m, log) ->
  (forall s k, In s l -> (1 <= k <= 15)%nat -> Rabs (nth k (spay s) 0) <= B) ->
  forall s, In s l -> sector_error eta_code s <= tol \/ smax s - smin s <= / 10 ^ 12 \/
     exists ts : list (sector R (list R)), length ts = 10%nat /\ incl ts log /\
       Forall (too_coarse (sector_error eta_code) tol) ts /\ refinement_chain (sector_error eta_code) powf tol ts s.
Proof.
  intros B HB. destruct (C78_order B HB) as (K & HK & H). exists K. split; [exact HK|].
  intros pay cmp powf tol fuel jumps lo hi l m log Ht E Hc s Hs.
  destruct (C78_control pay _ cmp powf tol fuel jumps lo hi l m log E s Hs) as (_ & [A|[A|A]]); [left| |right; right; exact A].
  - change (@slt R _) with Rltb in A. apply Rltb_false in A. exact A.
  - change (@slt R _) with Rltb in A. apply Rltb_false in A. change (smax s - smin s <= IZR 1 / IZR 1000) in A.
    destruct (Rle_lt_dec (smax s - smin s) (/ 10 ^ 12)) as [L|L]; [right; left; exact L|]. left.
    assert (0 < smax s - smin s) as Lp by (eapply Rlt_trans; [|exact L]; apply Rinv_0_lt_compat, pow_lt; lra).
    eapply Rle_trans; [apply (H s)|].
    + intros k Hk. apply Hc; assumption.
    + unfold sh. split; [exact L|lra].
    + eapply Rle_trans; [|exact Ht]. unfold Rdiv. apply Rmult_le_compat_l; [exact HK|].
      eapply Rle_trans; [apply pow_incr; split; [apply Rlt_le, Lp|exact A]|]. right.
      replace (1 / 1000) with (/ 10 ^ 3) by (simpl; field). rewrite pow_inv, <- pow_mult. reflexivity.
Qed.

(** ---- where the estimate is 0 (a constant potential between jumps), no sector boundary is introduced except the initial
    meeting point 0.4956864123 hi + 0.5043135877 lo: at most (number of jumps + 2) sectors; without jumps exactly two *)
Lemma increasing_mins {P} (l : list (sector R P)) : forall lo hi, chain lo hi l -> (forall s, In s l -> smin s < smax s) ->
  NoDup (map smin l) /\ forall s, In s l -> lo <= smin s < hi.
Proof.
  induction l as [|s l IH]; intros lo hi C W; [split; [constructor|intros s []]|]. destruct C as [C1 C2].
  assert (smin s < smax s) as Ws by (apply W; left; auto).
  destruct (IH _ _ C2) as [I1 I2]; [intros; apply W; right; auto|]. 
  assert (smax s <= hi) as Hh.
  { destruct l as [|t l]; [simpl in C2; lra|]. specialize (I2 t (or_introl eq_refl)). lra. }
  split.
  - cbn [map]. constructor; [|exact I1]. intro Hin. apply in_map_iff in Hin as (t & Et & Ht). apply I2 in Ht. lra.
  - intros t [<-|Ht]; [lra|]. apply I2 in Ht. lra.
Qed.
Theorem C78_pieces {P} : forall (pay : R -> R -> dir -> P) err cmp powf tol lo hi jumps fuel l m log,
  0 < tol -> (forall e, tol < e -> powf tol e <= 1) -> (forall e, 0 < e -> e < tol / 2 -> 1 <= powf tol e) ->
  lo < hi -> StronglySorted Rlt jumps -> (forall j, In j jumps -> lo < j < hi) ->
  (forall s, lo <= smin s -> smin s < smax s -> smax s <= hi -> (forall j, In j jumps -> ~ (smin s < j < smax s)) -> err s = 0) ->
  auto_build pay err cmp powf tol fuel jumps lo hi = Ret (l, m, log) ->
  let mid := 4956864123 / 10000000000 * hi + 5043135877 / 10000000000 * lo in
  (forall s x, In s l -> x = smin s \/ x = smax s -> x = lo \/ x = mid \/ x = hi \/ In x jumps) /\
  (length l <= length jumps + 2)%nat /\
  (jumps = [] -> exists s t, l = [s; t] /\ m = 0%Z /\ smin s = lo /\ smax s = mid /\ sdir s = Dfwd /\ smin t = mid /\ smax t = hi /\ sdir t = Dbwd).
Proof.
  intros pay err cmp powf tol lo hi jumps fuel l m log Ht A B C D E Hz F mid.
  destruct (auto_build_R pay err cmp powf tol A B lo hi jumps C E D) as [F0 [l' [m' [log' [G [H1 [H2 H3]]]]]]].
  assert (K := auto_build_mono _ _ _ _ _ _ (Nat.max fuel F0) _ _ _ _ F (Nat.le_max_l _ _)).
  rewrite G in K by lia. injection K as -> -> ->.
  assert (forall t, In t log -> err t = 0) as Z.
  { intros t Hlog. destruct (H2 t Hlog) as [(X1 & X2 & X3) X4]. apply Hz; auto. }
  pose proof (build_cuts pay err cmp powf tol Ht _ _ _ _ _ _ _ F Z) as Cu. fold mid in Cu. rewrite Forall_forall in Cu.
  apply C03_automatic_real in F as [[Ne Ch] [Dir Hm]].
  destruct (increasing_mins l lo hi Ch) as [N1 N2]; [intros s Hs; apply H1 in Hs; destruct Hs as [(X1 & X2 & X3) _]; exact X2|].
  assert (Len : (length l <= length jumps + 2)%nat).
  { rewrite <- (map_length smin l). replace (length jumps + 2)%nat with (length (lo :: mid :: jumps)) by (simpl; lia).
    apply NoDup_incl_length; [exact N1|]. intros x Hx. apply in_map_iff in Hx as (s & <- & Hs). destruct (Cu s Hs) as [[X|[X|[X|X]]] _]; simpl; auto.
    apply N2 in Hs. lra. }
  split; [|split; [exact Len|]].
  - intros s x Hs Hx. destruct (Cu s Hs) as [X Y]. unfold cut in X, Y. destruct Hx as [-> | ->]; tauto.
  - intros ->. cbn [length] in Len. destruct l as [|s [|t [|u l]]]; cbn [length] in Len, Hm; try lia. exists s, t.
    assert (m = 0)%Z as Em by lia. split; [reflexivity|]. split; [exact Em|]. rewrite Em in Dir.
    destruct Ch as (C1 & C2 & C3). destruct (H1 s (or_introl eq_refl)) as [(X1 & X2 & X3) _]. destruct (H1 t (or_intror (or_introl eq_refl))) as [(Y1 & Y2 & Y3) _].
    destruct (Cu s (or_introl eq_refl)) as [_ Cm]. unfold cut in Cm.
    assert (smax s = mid) as Es.
    { destruct Cm as [W|[W|[W|[]]]]; [exfalso|exfalso|exact W]; lra. }
    pose proof (Dir 0%nat s eq_refl) as D0. pose proof (Dir 1%nat t eq_refl) as D1. cbn in D0, D1.
    repeat split; auto; lra.
Qed.

(** ---- refuted: the tolerance is not met in general.  For every tolerance there is a polynomial potential for which the
    problem on [0, 1/500] is built with a sector whose estimate exceeds it (sectors of at most 1e-3 are never refined) *)
Lemma proj66 A : projection 6 (polyval [0; 0; 0; 0; 0; 0; A]) = A / 924.
Proof.
  rewrite projection_poly. cbn [wsum]. rewrite <- !projQ_R.
  assert (Q2R (projQ 6 6) = 1 / 924) as ->.
  { assert (projQ 6 6 == 1 # 924)%Q as Q by (vm_compute; reflexivity). rewrite (Qeq_eqR _ _ Q). unfold Q2R. simpl. lra. }
  rewrite !Rmult_0_l, !Rplus_0_l. field.
Qed.
Theorem C78_tolerance_refuted : forall tol, 0 < tol -> exists V : R -> R, (exists A, forall x, V x = A * x ^ 6) /\
  exists F l m log, (forall fuel, (F <= fuel)%nat ->
    auto_build (sector_vs V) (sector_error eta_code) compare_vs (fun tol e => Rpower (tol / e) (1 / 15)) tol fuel [] 0 (1 / 500) = Ret (l, m, log)) /\
  exists s, In s l /\ tol < sector_error eta_code s.
Proof.
  intros tol Ht. set (b := 33 / 50000). set (A := 10 ^ 6 * (1 + tol)).
  exists (fun x => A / b ^ 6 * x ^ 6). split; [exists (A / b ^ 6); reflexivity|].
  set (V := fun x => A / b ^ 6 * x ^ 6).
  destruct (C05_matslise V (sector_error eta_code) tol 0 (1 / 500) [] Ht ltac:(lra) (SSorted_nil _) ltac:(intros j [])) as (F & l & m & log & H & _ & _).
  exists F, l, m, log. split; [exact H|].
  set (s := mk (sector_vs V) 0 b Dfwd).
  assert (tol < sector_error eta_code s) as He.
  { pose proof (C11_coefficients 16 [0; 0; 0; 0; 0; 0; A] 0 b 6 ltac:(lia) ltac:(lia) ltac:(simpl; lia) ltac:(unfold b; lra)) as Q. cbv zeta in Q.
    rewrite proj66 in Q.
    assert (forall x, polyval [0; 0; 0; 0; 0; 0; A] ((x - 0) / (b - 0)) = V x) as Ev.
    { intro x. unfold V. unfold polyval. cbn [length seq map sumR fold_right nth pow]. rewrite !Rminus_0_r. field. unfold b; lra. }
    assert (getCoefficients 16 (fun x => polyval [0; 0; 0; 0; 0; 0; A] ((x - 0) / (b - 0))) 0 b = getCoefficients 16 V 0 b) as Eg.
    { unfold getCoefficients. apply map_ext. intro i. unfold integrate, leg_fs. rewrite (map_ext _ _ Ev). reflexivity. }
    rewrite Eg in Q. set (v6 := nth 6 (getCoefficients 16 V 0 b) 0) in *. rewrite Rminus_0_r in Q.
    assert (norm1 [0; 0; 0; 0; 0; 0; A] = A) as En.
    { unfold norm1. cbn [map sumR fold_right]. rewrite Rabs_R0, Rabs_pos_eq; [ring|]. unfold A. apply Rmult_le_pos; [apply pow_le|]; lra. }
    rewrite En in Q. unfold table_tol in Q. cbn [Nat.leb] in Q.
    assert (0 < A) as HA by (unfold A; apply Rmult_lt_0_compat; [apply pow_lt|]; lra).
    assert (A / 1000 <= b ^ 6 * v6) as Hv.
    { apply Rabs_le_between in Q. lra. }
    assert (sh s = b) as Es by (unfold sh, s; cbn; ring).
    assert (10 * (1 + tol) * (1 + tol) <= 1 / 100000 * v6 * v6 * b ^ 12) as Hb.
    { replace (1 / 100000 * v6 * v6 * b ^ 12) with (1 / 100000 * ((b ^ 6 * v6) * (b ^ 6 * v6))) by ring.
      assert (A / 1000 * (A / 1000) <= (b ^ 6 * v6) * (b ^ 6 * v6)) as Hq by (apply Rmult_le_compat; lra).
      replace (10 * (1 + tol) * (1 + tol)) with (1 / 100000 * (A / 1000 * (A / 1000))) by (unfold A; field). lra. }
    assert (0 <= 2 / 10000 * Rabs (nth 14 (spay s) 0) * b ^ 12 * b * b) as Hp.
    { assert (0 < b) by (unfold b; lra). pose proof (Rabs_pos (nth 14 (spay s) 0)). repeat apply Rmult_le_pos; try lra; apply pow_le; lra. }
    eapply Rlt_le_trans; [|unfold sector_error; cbv zeta; eapply Rle_trans; [|apply Rmax_r]; eapply Rle_trans; [|apply Rmax_r]; apply Rmax_r].
    rewrite Es. change (nth 6 (spay s) 0) with v6. nra. }
  exists s. split; [|exact He].
  assert (s = mk (sector_vs V) 0 (0 + 33 / 100 * (1 / 500 - 0)) Dfwd) as Es.
  { unfold s, b. f_equal; lra. }
  rewrite Es. rewrite Es in He.
  apply (build_first (sector_vs V) (sector_error eta_code) compare_vs (fun tol e => Rpower (tol / e) (1 / 15)) tol F [] 0 (1 / 500) l m log).
  - lra.
  - intros j [].
  - lra.
  - apply H. lia.
  - lra.
Qed.

(** Non-vacuity of the control theorem: on IEEE doubles and rationals runs exist (C03, C05); here a run on the rationals in which
    sectors are refined and grown *)
Definition c78_err (s : sector Q unit) : Q := if Qltb (smax s) (1 # 2) then 0 else (smax s - smin s)%Q.
Definition c78_run := auto_build (fun _ _ _ => tt) c78_err (fun _ _ => true) (fun tol e => if Qltb tol e then 1 # 2 else 2)%Q (1 # 10)%Q 50 [] 0%Q 1%Q.
Example C78_control_run : match c78_run with Ret (l, m, log) => length l = 11%nat /\ (length log > length l)%nat | _ => False end.
Proof. vm_compute. split; [reflexivity|lia]. Qed.
(** Non-vacuity of the estimate: a sector with constant potential, and one with a varying one *)
Example C78_instance : sector_error eta_code (mkSector 0 (1 / 2) Dfwd [3]) = 0 /\
  exists K, 0 <= K /\ sector_error eta_code (mkSector 0 (1 / 2) Dfwd [1; 2; -1; 3]) <= K * (1 / 2) ^ 12.
Proof.
  assert (/ 10 ^ 12 < 1 / 2) as Hw.
  { replace (1 / 2) with (/ 2) by lra. apply Rinv_lt_contravar; [|]. apply Rmult_lt_0_compat; [lra|apply pow_lt; lra].
    apply Rlt_le_trans with (10 ^ 1); [lra|]. apply Rle_pow; [lra|lia]. }
  split.
  - apply (C78_constant (mkSector 0 (1 / 2) Dfwd [3])); [unfold sh; cbn [smin smax]; rewrite Rminus_0_r; exact Hw|].
    intros k Hk. destruct k as [|[|k]]; [lia|reflexivity|reflexivity].
  - destruct (C78_order 3 ltac:(lra)) as (K & HK & H). exists K. split; [exact HK|].
    specialize (H (mkSector 0 (1 / 2) Dfwd [1; 2; -1; 3])). cbn [spay] in H. unfold sh in H. cbn [smin smax] in H. rewrite Rminus_0_r in H.
    apply H; [|split; [exact Hw|lra]]. intros k Hk. do 4 (destruct k as [|k]; [cbn; try lia; apply Rabs_le; lra|]).
    cbn. destruct k; rewrite Rabs_R0; lra.
Qed.

Print Assumptions C78_dominates.
Print Assumptions C78_constant.
Print Assumptions C78_order.
Print Assumptions C78_control.
Print Assumptions C78_tolerance.
Print Assumptions C78_pieces.
Print Assumptions C78_tolerance_refuted.
