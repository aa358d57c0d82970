(** C63: the step matrices of coupled problems (Matscs::Sector::calculateT). *)
From Coq Require Import String QArith Qreals Reals ZArith Lra Lia.
From Coquelicot Require Import Coquelicot.
From Coq Require Import List Bool.
From Verif Require Import Base S_Eta P_Eta S_Legendre S_Formulas S_Coupled M_Sectors M_Core M_Formulas M_CoupledData M_Coupled
  P_Terms P_Terms2 P_Formulas P_Formulas2 P_Formulas3 P_Formulas4 P_WTerms P_Accuracy P_Coupled P_Coupled2 P_Coupled3 P_Coupled4.
Import ListNotations.
Open Scope R_scope.

(** ---- C63.  In the basis of the sector (in which v_0 is diagonal), column k of the block (0,q) of the partial-step
    matrix, q = 0, 1, as a function of delta, satisfies u'' = (V - E) u up to sum_i p_i(delta, h, v) eta_i, where the p_i
    are matrix polynomials, the same for all problems and all n, whose monomials all have total order >= 7 in delta and
    h, except for monomials (rounding of the printed table) of order >= 3 with coefficients at most 10^-10.  Here
    V(delta) = sum_{k <= 8} v_k h^k L_k(delta / h). *)
Theorem C63_residual : forall q, (q < 2)%nat ->
  exists p : nat -> list wmonomial,
  (forall i m, In m (p i) -> (7 <= worder m)%nat \/ ((3 <= worder m)%nat /\ Rabs (w_coef m) <= / 10 ^ 10)) /\
  forall n s E, cs_h s <> 0 -> diagonal n (cs_vs s 0%nat) -> forall r k, (r < n)%nat -> (k < n)%nat ->
  let u j x := cb (cblocks_delta eta_exact n s E x) q j k in
  exists y1 y2 : R -> R, forall x, is_derive (u r) x (y1 x) /\ is_derive y1 x (y2 x) /\
    y2 x = rsum n (fun j => mat_potential 8 (cs_vs s) (cs_h s) x r j * u j x) - E * u r x
           + rsum 5 (fun i => wpoly_val n (cs_vs s) (cs_h s) x (p i) r k * eta i ((cs_vs s 0%nat k k - E) * (x * x))).
Proof.
  intros q Hq. exists (wpolys (wres q)). split.
  - apply wpolys_ok. pose proof wcheck_res as H. rewrite forallb_forall in H. apply H. destruct q as [|[|q]]; [left|right; left|lia]; reflexivity.
  - intros n s E Hh Hd r k Hr Hk u. apply (ccolumn_residual n s E q Hq Hh Hd r k Hr Hk).
Qed.
(** the blocks (1,q) are the derivatives of the blocks (0,q), up to order 8 (order 4 for rounding terms) *)
Theorem C63_derivative_row : forall q, (q < 2)%nat ->
  exists p : nat -> list wmonomial,
  (forall i m, In m (p i) -> (8 <= worder m)%nat \/ ((4 <= worder m)%nat /\ Rabs (w_coef m) <= / 10 ^ 10)) /\
  forall n s E r k x, (r < n)%nat -> (k < n)%nat ->
  is_derive (fun x => cb (cblocks_delta eta_exact n s E x) q r k) x
    (cb (cblocks_delta eta_exact n s E x) (q + 2)%nat r k
     + rsum 5 (fun i => wpoly_val n (cs_vs s) (cs_h s) x (p i) r k * eta i ((cs_vs s 0%nat k k - E) * (x * x)))).
Proof.
  intros q Hq. exists (wpolys (wdr q)). split.
  - apply wpolys_ok. pose proof wcheck_der as H. rewrite forallb_forall in H. apply H. destruct q as [|[|q]]; [left|right; left|lia]; reflexivity.
  - intros n s E r k x Hr Hk. apply (cderivative_row n s E q Hq r k x Hr Hk).
Qed.
(** identity for delta = 0, in the sector's basis and in the user's *)
Theorem C63_identity_at_zero : forall n s E q r k, (q < 4)%nat -> (r < n)%nat -> (k < n)%nat ->
  let id := if ((q =? 0) || (q =? 3))%nat then (if (r =? k)%nat then 1 else 0) else 0 in
  cb (cblocks_delta eta_exact n s E 0) q r k = id /\
  (orthogonal n (cs_Q s) -> cb (cstep_delta eta_exact n s E 0) q r k = id).
Proof.
  intros n s E q r k Hq Hr Hk id. split; [apply (cinitial n s E q Hq r k Hr Hk)|]. intro HQ. unfold cstep_delta, rebase. cbn [cb]. rewrite mmult_unconj.
  rewrite (unconj_ext n _ _ (fun r c => if (r =? c)%nat then (if ((q =? 0) || (q =? 3))%nat then 1 else 0) else 0)).
  - rewrite unconj_id by assumption. unfold id. destruct ((q =? 0) || (q =? 3))%nat, (r =? k)%nat; reflexivity.
  - intros a b Ha Hb. rewrite (cinitial n s E q Hq a b Ha Hb). destruct ((q =? 0) || (q =? 3))%nat, (a =? b)%nat; reflexivity.
Qed.
(** for a constant potential both formulas are exact: the channels decouple *)
Theorem C63_constant_potential : forall n s E r k x, (r < n)%nat -> (k < n)%nat ->
  (forall i a b, (1 <= i <= 8)%nat -> (a < n)%nat -> (b < n)%nat -> cs_vs s i a b = 0) ->
  let w := cs_vs s 0%nat k k - E in let h := cs_h s in let on (v : R) := if (r =? k)%nat then v else 0 in
  let T := cblocks_delta eta_exact n s E x in let F := cblocks_full eta_exact n s E in
  (cb T 0%nat r k = on (eta 0 (w * (x * x))) /\ cb T 1%nat r k = on (x * eta 1 (w * (x * x))) /\
   cb T 2%nat r k = on (w * x * eta 1 (w * (x * x))) /\ cb T 3%nat r k = on (eta 0 (w * (x * x)))) /\
  (cb F 0%nat r k = on (eta 0 (w * (h * h))) /\ cb F 1%nat r k = on (h * eta 1 (w * (h * h))) /\
   cb F 2%nat r k = on (w * h * eta 1 (w * (h * h))) /\ cb F 3%nat r k = on (eta 0 (w * (h * h)))).
Proof.
  intros n s E r k x Hr Hk Hv w h on T F.
  pose proof (fun q Hq => cconstant n s E Hv q Hq r k x Hr Hk) as H.
  destruct (H 0%nat ltac:(lia)) as [A0 B0]. destruct (H 1%nat ltac:(lia)) as [A1 B1]. destruct (H 2%nat ltac:(lia)) as [A2 B2]. destruct (H 3%nat ltac:(lia)) as [A3 B3].
  cbn [cexact] in *. repeat split; assumption.
Qed.
(** at delta = h the tabulated full step is the partial step up to order 9 (order 6 for rounding terms) *)
Theorem C63_full_step : forall q, (q < 4)%nat ->
  exists p : nat -> list wmonomial,
  (forall i m, In m (p i) -> (9 <= worder m)%nat \/ ((6 <= worder m)%nat /\ Rabs (w_coef m) <= / 10 ^ 10)) /\
  forall n s E r k, (r < n)%nat -> (k < n)%nat -> let h := cs_h s in
  cb (cblocks_full eta_exact n s E) q r k = cb (cblocks_delta eta_exact n s E h) q r k
    + rsum 6 (fun i => wpoly_val n (cs_vs s) h h (p i) r k * eta i ((cs_vs s 0%nat k k - E) * (h * h))).
Proof.
  intros q Hq. exists (wpolys (wfd q)). split.
  - apply wpolys_ok. pose proof wcheck_full as H. rewrite forallb_forall in H. apply H, in_seq. lia.
  - intros n s E r k Hr Hk h. apply (cfull_vs_partial n s E q Hq r k Hr Hk).
Qed.
(** dt is the derivative of t with respect to E, up to the derivative of the last eta term (coefficient of order >= 7, >= 9) *)
Theorem C63_energy_derivative : forall q, (q < 4)%nat ->
  exists p p' : list wmonomial, (forall m, In m p -> (7 <= worder m)%nat) /\ (forall m, In m p' -> (9 <= worder m)%nat) /\
  forall n s E r k, (r < n)%nat -> (k < n)%nat -> let v0 := cs_vs s 0%nat k k in let h := cs_h s in
  (forall x, is_derive (fun E => cb (cblocks_delta eta_exact n s E x) q r k) E
     (cdb (cblocks_delta eta_exact n s E x) q r k - wpoly_val n (cs_vs s) h x p r k * (x * x * eta 5 ((v0 - E) * (x * x)) / 2))) /\
  is_derive (fun E => cb (cblocks_full eta_exact n s E) q r k) E
     (cdb (cblocks_full eta_exact n s E) q r k - wpoly_val n (cs_vs s) h h p' r k * (h * h * eta 6 ((v0 - E) * (h * h)) / 2)).
Proof.
  intros q Hq. exists (wdrop q), (wdroph q). split; [intros m; apply (wdrop_order q m Hq)|]. split; [intros m; apply (wdrop_order q m Hq)|].
  intros n s E r k Hr Hk v0 h. split; [intro x; apply (cpartial_E n s r k Hr Hk q E x)|apply (cfull_E n s r k Hr Hk q E)].
Qed.
(** what the constructor stores: a sector built for direction d carries the potential sum_k V_k h^k L_k in the basis Q,
    read from the left end, or mirrored from the right end for backward sectors; setDirection rebuilds it *)
Theorem C63_direction : forall n V Q h d x a b, h <> 0 -> (a < n)%nat -> (b < n)%nat ->
  mat_potential 8 (cs_vs (make_csector n V Q h d)) h x a b
  = conj n Q (mat_potential 8 V h (if dir_eqb d Dbwd then h - x else x)) a b.
Proof. exact cframe. Qed.
Theorem C63_set_direction : forall n V Q h old new i a b,
  let s := set_direction (make_csector n V Q h old) old new in let s' := make_csector n V Q h new in
  cs_h s = cs_h s' /\ cs_Q s = cs_Q s' /\ cs_vs s i a b = cs_vs s' i a b.
Proof. exact set_direction_rebuild. Qed.
(** the three branches of calculateT, and calculateT(E, use_h) *)
Theorem C63_branches : forall etaf n s E delta use_h,
  (Rabs delta <= / 10 ^ 12 -> ccalculateT etaf n s E delta use_h = CTid) /\
  (/ 10 ^ 12 < Rabs delta -> Rabs (delta - cs_h s) <= / 10 ^ 12 -> ccalculateT etaf n s E delta true = cstep_full etaf n s E) /\
  (/ 10 ^ 12 < Rabs delta -> use_h = false \/ / 10 ^ 12 < Rabs (delta - cs_h s) -> ccalculateT etaf n s E delta use_h = cstep_delta etaf n s E delta) /\
  ccalculateT_h etaf n s E true = cstep_full etaf n s E.
Proof.
  intros etaf n s E delta use_h. unfold ccalculateT, EPS12. split; [|split; [|split]].
  - intro H. rewrite (proj2 (Rleb_true _ _) H). reflexivity.
  - intros H1 H2. rewrite (proj2 (Rleb_false _ _) H1), (proj2 (Rleb_true _ _) H2). reflexivity.
  - intros H1 [->|H2]; rewrite (proj2 (Rleb_false _ _) H1); [reflexivity|]. rewrite (proj2 (Rleb_false _ _) H2), andb_false_r. reflexivity.
  - reflexivity.
Qed.

(** Non-vacuity: a 2-channel sector with a varying coupling *)
Definition ex_cs : csector := make_csector 2 (fun k r c => match k, r, c with 0%nat, 0%nat, 0%nat => 1 | 0%nat, 1%nat, 1%nat => 3 | 1%nat, 0%nat, 1%nat => 2 | 1%nat, 1%nat, 0%nat => 2 | _, _, _ => 0 end)
  (fun r c => if (r =? c)%nat then 1 else 0) (1/2) Dbwd.
Example ex_cs_ok : cs_h ex_cs <> 0 /\ diagonal 2 (cs_vs ex_cs 0%nat) /\ orthogonal 2 (cs_Q ex_cs) /\ cs_vs ex_cs 1%nat 0%nat 1%nat = -2.
Proof.
  split; [simpl; lra|]. split; [|split].
  - intros a b Ha Hb Hne. unfold ex_cs, make_csector, mscale, mmult, mtr. cbn [cs_vs].
    destruct a as [|[|a]]; [| |lia]; destruct b as [|[|b]]; try lia; cbn; ring.
  - intros a b Ha Hb. destruct a as [|[|a]]; [| |lia]; destruct b as [|[|b]]; try lia; cbn; split; ring.
  - unfold ex_cs, make_csector, mscale, mmult, mtr. cbn [cs_vs rsum dir_eqb Nat.odd Nat.even Nat.eqb negb andb]. ring.
Qed.
(** the rounding terms are really there: the table does not satisfy the equation to order 7 *)
Example C63_rounding_visible : existsb (existsb (fun t => (tdeg t <? 7)%nat && negb (tcoef t =? 0)%Z)) (wres 0) = true.
Proof. vm_cast_no_check (eq_refl true). Qed.

Print Assumptions C63_residual.
Print Assumptions C63_derivative_row.
Print Assumptions C63_identity_at_zero.
Print Assumptions C63_constant_potential.
Print Assumptions C63_full_step.
Print Assumptions C63_energy_derivative.
Print Assumptions C63_direction.
Print Assumptions C63_set_direction.
