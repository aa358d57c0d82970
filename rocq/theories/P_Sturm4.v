(** Turns towards low energies for arbitrary boundary directions, and the angle difference of a matching in terms of turns. *)
From Coq Require Import Reals ZArith Lra Lia Bool.
From Coquelicot Require Import Coquelicot.
From Coq Require Import List.
From Verif Require Import Base M_Sectors S_Sectors P_Lookup M_Core S_Core P_Core P_Core2 P_Prufer S_Formulas P_Terms2 S_Accuracy S_Zeros P_Lift P_Lift2 P_Cross P_Global2 P_Global3 P_Global5 P_Step P_Step2 P_Count P_Count2 P_Sturm P_Sturm2 P_Sturm3 T_Core T_Zeros S_Search T_Search T_Sturm P_Hill P_Hill2 P_Hill4.
Import ListNotations.
Open Scope R_scope.

Lemma sinh_above : forall a s e : R, 0 <= a -> 4 <= e -> 0 <= s -> forall k A B c, 0 < k -> a = A + B -> -1 <= k * (A - B) <= 1 -> -1 <= c <= 1 ->
  (0 < a -> 2 <= k * a) -> (0 < s -> 2 <= k * s) -> (a = 0 -> k * (A - B) = 1) -> (s = 0 -> c = -1) ->
  0 < A * e + B / e /\ 0 < k * (A * e - B / e) * s - (A * e + B / e) * c.
Proof.
  intros a s e Ha He Hs k A B c Hk EA EB Hc Ka Ks Za Zs.
  assert (0 < / e) as Hi by (apply Rinv_0_lt_compat; lra). assert (/ e <= / 4) as Hi4 by (apply Rinv_le_contravar; lra). unfold Rdiv. set (i := / e) in *. assert (e * i = 1) as Ei by (unfold i; apply Rinv_r; lra).
  assert (k * s = 0 \/ 2 <= k * s) as Ds. { destruct Hs as [Q|Q]; [right; apply Ks, Q|left; rewrite <- Q; ring]. }
  assert (0 <= k * s) as Pks by (apply Rmult_le_pos; lra).
  destruct Ha as [Ha|Ha].
  - specialize (Ka Ha).
    (* A, B between a/4 and 3a/4 *)
    assert (k * A = (k * a + k * (A - B)) / 2) as QA by (rewrite EA; field). assert (k * B = (k * a - k * (A - B)) / 2) as QB by (rewrite EA; field).
    assert (k * a / 4 <= k * A) as LA by lra. assert (k * a / 4 <= k * B <= 3 / 4 * (k * a)) as LB by lra.
    assert (0 < A) as PA. { apply (Rmult_lt_reg_l k); lra. } assert (0 < B) as PB. { apply (Rmult_lt_reg_l k); lra. }
    assert (0 < A * e) as PAe by (apply Rmult_lt_0_compat; lra). assert (0 < B * i) as PBi by (apply Rmult_lt_0_compat; lra).
    split; [lra|].
    assert (B <= 3 * A) as LBA. { apply (Rmult_le_reg_l k); lra. }
    assert (B * i <= 3 / 4 * A) as LBi. { apply Rle_trans with (B * / 4); [apply Rmult_le_compat_l; lra|lra]. }
    assert (4 * A <= A * e) as LAe. { rewrite Rmult_comm. apply Rmult_le_compat_l; lra. }
    destruct Ds as [Ds|Ds].
    + assert (s = 0) as S0. { apply (Rmult_eq_reg_l k); lra. } rewrite (Zs S0), S0. lra.
    + assert (2 * (A * e - B * i) <= (k * s) * (A * e - B * i)) as L1 by (apply Rmult_le_compat_r; lra).
      assert ((A * e + B * i) * c <= (A * e + B * i) * 1) as L2 by (apply Rmult_le_compat_l; lra). lra.
  - specialize (Za (eq_sym Ha)). assert (B = - A) as -> by lra. assert (k * A = 1 / 2) as QA by lra. assert (0 < A) as PA by (apply (Rmult_lt_reg_l k); lra).
    assert (4 * A <= A * e) as LAe. { rewrite Rmult_comm. apply Rmult_le_compat_l; lra. }
    assert (0 < A * i <= A * / 4) as LAi. { split; [apply Rmult_lt_0_compat; lra|apply Rmult_le_compat_l; lra]. }
    split; [lra|].
    destruct Ds as [Ds|Ds].
    + assert (s = 0) as S0. { apply (Rmult_eq_reg_l k); lra. } rewrite (Zs S0), S0. lra.
    + assert (2 * (A * e + A * i) <= (k * s) * (A * e + A * i)) as L1 by (apply Rmult_le_compat_r; lra).
      assert ((A * e - A * i) * c <= (A * e - A * i) * 1) as L2 by (apply Rmult_le_compat_l; lra). lra.
Qed.

Section Low.
Variables (l : list sec) (lo hi : R).
Hypothesis PT : partition lo hi l.
Hypothesis Ho : forall s, In s l -> smin s < smax s.
Hypothesis Hlh : lo < hi.

(** under a high enough constant potential every direction but the vertical one ends as close to 0 as desired *)
Lemma turned_sinh : forall al be, 0 <= al < PI -> 0 < be <= PI -> exists k b, 0 < k /\ turned (fun _ => k * k) l lo hi 0 al b /\ 0 < b < be.
Proof using PT Ho Hlh.
  intros al be Hal Hbe. pose proof PIpos as HP.
  assert (0 <= sin al) as Pa by (apply sin_ge_0; lra). assert (0 <= sin be) as Pb by (apply sin_ge_0; lra).
  assert (forall a, 0 <= a -> exists k, 0 <= k /\ (0 < a -> 2 <= k * a)) as Big.
  { intros a [H|H]; [exists (2 / a)|exists 0; split; [lra|intro; lra]]. split; [left; apply Rdiv_lt_0_compat; lra|]. intros _. right. field. lra. }
  destruct (Big (sin al) Pa) as (k1 & K1 & B1). destruct (Big (sin be) Pb) as (k2 & K2 & B2).
  assert (0 < 3 / (hi - lo)) as K3 by (apply Rdiv_lt_0_compat; lra).
  set (k := 3 / (hi - lo) + k1 + k2). assert (0 < k) as Hk by (unfold k; lra).
  set (A := (sin al + cos al / k) / 2). set (B := (sin al - cos al / k) / 2).
  assert (A + B = sin al) as EA by (unfold A, B; field; lra). assert (k * (A - B) = cos al) as EB by (unfold A, B; field; lra).
  assert (3 <= k * (hi - lo)) as KL. { unfold k. rewrite Rmult_plus_distr_r, Rmult_plus_distr_r. assert (3 / (hi - lo) * (hi - lo) = 3) by (field; lra). assert (0 <= k1 * (hi - lo)) by (apply Rmult_le_pos; lra). assert (0 <= k2 * (hi - lo)) by (apply Rmult_le_pos; lra). lra. }
  assert (forall a c0, 0 <= a -> 0 <= c0 -> (0 < a -> 2 <= c0 * a) -> c0 <= k -> 0 < a -> 2 <= k * a) as Up.
  { intros a c0 Ha Hc0 H Hck Ha0. specialize (H Ha0). apply Rle_trans with (1 := H). apply Rmult_le_compat_r; lra. }
  assert (0 < sin al -> 2 <= k * sin al) as KA by (apply (Up _ k1); auto; unfold k; lra). assert (0 < sin be -> 2 <= k * sin be) as KB by (apply (Up _ k2); auto; unfold k; lra).
  assert (sin al = 0 -> al = 0) as Za. { intro Z. destruct (proj1 Hal) as [L|L]; [|auto]. assert (0 < sin al) by (apply sin_gt_0; lra). lra. }
  assert (sin be = 0 -> be = PI) as Zb. { intro Z. destruct (proj2 Hbe) as [L|L]; [|auto]. assert (0 < sin be) by (apply sin_gt_0; lra). lra. }
  pose (z := fun x => A * exp (k * (x - lo)) + B / exp (k * (x - lo))). pose (z' := fun x => k * (A * exp (k * (x - lo)) - B / exp (k * (x - lo)))).
  assert (forall x, 0 < exp (k * (x - lo))) as Pe by (intro; apply exp_pos).
  assert (forall x, is_derive z x (z' x)) as D1. { intro x. unfold z, z'. pose proof (Pe x). auto_derive; [apply Rgt_not_eq; exact H|unfold Rminus in *; field; lra]. }
  assert (forall x, is_derive z' x ((k * k - 0) * z x)) as D2. { intro x. unfold z, z'. pose proof (Pe x). auto_derive; [apply Rgt_not_eq; exact H|unfold Rminus in *; field; lra]. }
  assert (solution (fun _ => k * k) 0 lo hi l z z') as S.
  { split; [|intros s x _ _; split; [apply D1|apply D2]]. intros x _. split; [apply (ex_derive_continuous z); eexists; apply D1|apply (ex_derive_continuous z'); eexists; apply D2]. }
  assert (z lo = sin al) as Z0 by (unfold z; rewrite Rminus_eq_0, Rmult_0_r, exp_0, <- EA; field). assert (z' lo = cos al) as Z0' by (unfold z'; rewrite Rminus_eq_0, Rmult_0_r, exp_0, <- EB; field).
  assert (forall (s : sec) (x : R), In s l -> smin s < x < smax s -> Rabs ((fun _ => k * k) x) <= k * k) as Bd by (intros s x _ _; cbv beta; rewrite Rabs_right; [lra|apply Rle_ge, Rmult_le_pos; lra]).
  assert (nontrivial z z' lo hi) as N.
  { apply (nontrivial_at (fun _ => k * k) l lo hi (k * k) PT Ho Bd ltac:(apply Rmult_le_pos; lra) 0 z z' lo S ltac:(lra)). rewrite Z0, Z0'. pose proof (sin2_cos2 al) as Q. unfold Rsqr in Q. destruct (Req_dec (sin al) 0) as [Z|Z]; [right; intro Z2; rewrite Z, Z2 in Q; lra|left; exact Z]. }
  destruct (ang_exists 1 z z' lo hi al ltac:(lra) ltac:(lra) (proj1 S) N) as (f & Af & F); [rewrite Z0, Z0'; ring|].
  (* positive inside *)
  assert (forall x, lo < x <= hi -> 0 < z x) as Pos.
  { intros x Hx. unfold z. pose proof (Pe x) as P. destruct Pa as [Pa|Pa].
    - specialize (KA Pa). pose proof (COS_bound al) as CB. assert (k * A = (k * sin al + cos al) / 2) as QA by (unfold A; field; lra). assert (k * B = (k * sin al - cos al) / 2) as QB by (unfold B; field; lra).
      assert (0 < A) by (apply (Rmult_lt_reg_l k); lra). assert (0 < B) by (apply (Rmult_lt_reg_l k); lra).
      apply Rplus_lt_0_compat; [apply Rmult_lt_0_compat|apply Rdiv_lt_0_compat]; assumption.
    - rewrite (Za (eq_sym Pa)), cos_0 in EB. assert (B = - A) as -> by lra. assert (k * A = 1 / 2) as QA by lra. assert (0 < A) as PA by (apply (Rmult_lt_reg_l k); lra).
      assert (1 < exp (k * (x - lo))) as G. { rewrite <- exp_0. apply exp_increasing. apply Rmult_lt_0_compat; lra. }
      assert (/ exp (k * (x - lo)) < 1) as G2. { rewrite <- Rinv_1. apply Rinv_lt_contravar; lra. }
      assert (0 < A * (exp (k * (x - lo)) - / exp (k * (x - lo)))) by (apply Rmult_lt_0_compat; lra). unfold Rdiv. lra. }
  destruct (global_count l lo hi PT (fun _ => k * k) 0 z z' S N Ho 1 f lo hi ltac:(lra) Af ltac:(lra) ltac:(lra) ltac:(lra)) as (zs & LZ & FL).
  assert (zs = []) as ->. { destruct zs as [|x zs]; [reflexivity|exfalso]. destruct LZ as [_ LZ]. destruct (proj1 (LZ x) (or_introl eq_refl)) as [Hx Zx]. specialize (Pos x Hx). lra. }
  cbn in FL. rewrite F, Z.add_0_r in FL. assert (flr al = 0%Z) as F0. { pose proof (flr_spec al) as Q. assert (IZR (flr al) < 1) as Q1 by (apply (Rmult_lt_reg_r PI); lra). assert (-1 < IZR (flr al)) as Q2 by (apply (Rmult_lt_reg_r PI); lra). apply lt_IZR in Q1. apply lt_IZR in Q2. lia. }
  rewrite F0 in FL. pose proof (flr_spec (f hi)) as FS. rewrite FL in FS.
  pose proof (proj2 Af hi ltac:(lra)) as Q. cbv beta in Q. rewrite Rmult_1_l in Q.
  specialize (Pos hi ltac:(lra)) as Ph.
  assert (0 < f hi) as F1. { destruct (proj1 FS) as [L|L]; [lra|]. rewrite Rmult_0_l in L. rewrite <- L, cos_0, sin_0 in Q. lra. }
  assert (f hi < PI) as F2 by lra.
  exists k, (f hi). split; [exact Hk|]. split; [exists z, z', f; auto|]. split; [exact F1|].
  pose proof (COS_bound al) as CBa. pose proof (COS_bound be) as CBb.
  destruct (sinh_above (sin al) (sin be) (exp (k * (hi - lo))) Pa) with (k := k) (A := A) (B := B) (c := cos be) as [_ G]; auto.
  - pose proof (exp_ineq1_le (k * (hi - lo))). lra.
  - lra.
  - intro Z. rewrite EB, (Za Z). apply cos_0.
  - intro Z. rewrite (Zb Z). apply cos_PI.
  - change (0 < z' hi * sin be - z hi * cos be) in G. assert (0 < sin (f hi)) as Sf by (apply sin_gt_0; lra).
    assert (0 < z hi * sin (be - f hi)) as G2. { rewrite sin_minus. assert (0 < sin (f hi) * (z' hi * sin be - z hi * cos be)) as G3 by (apply Rmult_lt_0_compat; assumption). replace (z hi * (sin be * cos (f hi) - cos be * sin (f hi))) with (sin be * (z hi * cos (f hi)) - z hi * cos be * sin (f hi)) by ring. rewrite Q. lra. }
    destruct (Rlt_le_dec (f hi) be) as [|C]; [assumption|exfalso].
    assert (0 <= sin (f hi - be)) as S1 by (apply sin_ge_0; lra). replace (be - f hi) with (- (f hi - be)) in G2 by ring. rewrite sin_neg in G2. assert (0 <= z hi * sin (f hi - be)) by (apply Rmult_le_pos; lra). lra.
Qed.
Variables (V : R -> R) (M : R).
Hypothesis HM : forall s x, In s l -> smin s < x < smax s -> Rabs (V x) <= M.
Lemma turned_to_zero : forall al be, 0 <= al < PI -> 0 < be <= PI -> exists E0, forall E b, E <= E0 -> turned V l lo hi E al b -> b < be.
Proof using PT Ho Hlh HM.
  intros al be Ha Hb. destruct (turned_sinh al be Ha Hb) as (k & b0 & Hk & T & B0). exists (- M - k * k - 1). intros E b HE TE.
  assert (b < b0); [|lra]. apply (turned_compare l lo hi PT Ho Hlh V (fun _ => k * k) E 0 al b b0); [|exact TE|exact T].
  intros t x Ht Hx. pose proof (HM t x Ht Hx) as Q. apply Rabs_le_between in Q. lra.
Qed.
End Low.

(** ---- the angle difference of a matching with separated conditions *)
Section Match.
Variable calcT : sec -> R -> R -> bool -> Tm.
Variable vm : R.
Variables (l : list sec) (m : Z) (sm : sec) (lo hi : R) (V : R -> R) (left right : Y).
Hypothesis PT : partition lo hi l.
Hypothesis Hm : vget l m = Ret sm.
Hypothesis Hsm : smax sm < hi.
Hypothesis NL : nonzero left.
Hypothesis NR : nonzero right.
Notation c := (smax sm).
Notation F := (angle_difference calcT vm l m lo hi left right).

(** the directions of the boundary conditions *)
Lemma direction : forall y, nonzero y -> exists a b, (0 <= a < PI /\ y0 y * cos a = y1 y * sin a) /\ (0 < b <= PI /\ y0 y * cos b = y1 y * sin b) .
Proof using.
  clear. intros y Ny. pose proof PIpos as HP. assert (y0 y * cos (atan_safe (y0 y) (y1 y)) = y1 y * sin (atan_safe (y0 y) (y1 y))) as Q by (pose proof (atan_safe_angle (y0 y) (y1 y)); lra).
  set (t := atan_safe (y0 y) (y1 y)) in *.
  pose proof (flr_spec t) as FS. set (j := flr t) in *.
  assert (forall k, y0 y * cos (t + IZR k * PI) = y1 y * sin (t + IZR k * PI)) as Sh.
  { intro k. destruct (psign_shift k t) as [S1 S2]. rewrite S1, S2. replace (y0 y * (psign k * cos t)) with (psign k * (y0 y * cos t)) by ring. rewrite Q. ring. }
  exists (t + IZR (- j) * PI). exists (if Req_EM_T (t + IZR (- j) * PI) 0 then PI else t + IZR (- j) * PI).
  assert (t + IZR (- j) * PI = t - IZR j * PI) as Ej by (rewrite opp_IZR; ring).
  split; [split; [rewrite Ej; lra|apply Sh]|]. destruct (Req_EM_T (t + IZR (- j) * PI) 0) as [Z|Z].
  - split; [lra|]. replace PI with (t + IZR (- j + 1) * PI) by (rewrite plus_IZR; lra). apply Sh.
  - split; [rewrite Ej in *; lra|apply Sh].
Qed.
Lemma difference_turn : exists al be, 0 <= al < PI /\ 0 < be <= PI /\ forall E, exact_at calcT V lo hi l c left right E ->
  exists b, turned V l lo hi E al b /\ (forall k, IZR k <= F E <-> IZR k * PI <= b - be) /\ (forall k, IZR k < F E <-> IZR k * PI < b - be).
Proof using PT Hm Hsm NL NR.
  pose proof PIpos as HP. destruct (direction left NL) as (al & _ & (Hal & Qal) & _). destruct (direction right NR) as (_ & be & _ & (Hbe & Qbe)).
  exists al, be. split; [exact Hal|]. split; [exact Hbe|]. intros E X. pose proof (scaling_pos vm E) as HS.
  pose proof (difference_value calcT vm l m sm lo hi V _ _ E PT Hm Hsm NL NR X) as DV.
  destruct (at_energy calcT vm l m sm lo hi V _ _ PT Hm Hsm NL NR E X) as (Ho & Hc & zL & zL' & AL & zR & zR' & AR & derr & SL & SR & _ & _ & TL & TR & ME).
  destruct (order_in l lo hi PT Ho) as [Hlh O]. pose proof X as (CL & CR & _).
  destruct (resolved_bounded V l) as (M & HM & B); [intros s Hs; apply (CL s Hs)|].
  destruct SL as [solL nzL L0 L1 angL rL], SR as [solR nzR R0 R1 angR rR]. unfold rgL in rL. unfold rgR in rR.
  pose proof (proj2 angL lo ltac:(lra)) as QL. pose proof (proj2 angR hi ltac:(lra)) as QR. cbv beta in QL, QR. rewrite Rmult_1_l in QL, QR. rewrite L0, L1 in QL. rewrite R0, R1 in QR.
  assert (AL lo = al) as EL. { assert (AL lo - al = 0); [|lra]. apply mult_pi_small; [|lra]. apply (angles_pi (y0 left) (y1 left)); [exact NL|exact QL|exact Qal]. }
  assert (AR hi = be) as ER. { assert (AR hi - be = 0); [|lra]. apply mult_pi_small; [|lra]. apply (angles_pi (y0 right) (y1 right)); [exact NR|exact QR|exact Qbe]. }
  exists (AL hi). split; [exists zL, zL', AL; auto|].
  pose proof (flr_const V l lo hi M PT Ho B HM E zL zL' zR zR' AL AR solL solR nzL nzR angL angR c hi ltac:(lra) ltac:(lra)) as FC. rewrite ER in FC.
  pose proof (mult_spread V l lo hi M PT Ho B HM E zL zL' zR zR' AL AR solL solR nzL nzR angL angR) as MS.
  assert (forall k, IZR k * PI <= AL c - AR c <-> IZR k * PI <= AL hi - be) as G1. { intro k. rewrite !flr_ge, FC. tauto. }
  assert (forall k, IZR k * PI = AL c - AR c <-> IZR k * PI = AL hi - be) as G2.
  { intro k. split; intro H.
    - pose proof (MS c ltac:(lra) (ex_intro _ k (eq_sym H)) hi ltac:(lra)). lra.
    - assert (multiple_of_pi (AL hi - AR hi)) as MH by (exists k; rewrite ER; lra). pose proof (MS hi ltac:(lra) MH c ltac:(lra)). lra. }
  assert (forall k, IZR k * PI <= rescale (AL c) (scaling vm E) - rescale (AR c) (scaling vm E) <-> IZR k * PI <= AL c - AR c) as G3 by (intro k; apply level_transfer, HS).
  assert (forall k, IZR k * PI < rescale (AL c) (scaling vm E) - rescale (AR c) (scaling vm E) <-> IZR k * PI < AL c - AR c) as G4.
  { intro k. split; [|apply level_transfer_lt, HS]. intro H. pose proof (proj1 (G3 k) ltac:(lra)) as [L|L]; [exact L|]. exfalso.
    assert (AL c = AR c + IZR k * PI) as Q by lra. rewrite Q, rescale_shift in H. lra. }
  rewrite TL, TR in G3, G4. rewrite <- DV in G3, G4.
  assert (forall k, IZR k <= F E <-> IZR k * PI <= F E * PI) as G5. { intro k. split; intro H; [apply Rmult_le_compat_r; lra|apply (Rmult_le_reg_r PI); lra]. }
  assert (forall k, IZR k < F E <-> IZR k * PI < F E * PI) as G6. { intro k. split; intro H; [apply Rmult_lt_compat_r; lra|apply (Rmult_lt_reg_r PI); lra]. }
  split; intro k.
  - rewrite G5, G3, G1. tauto.
  - rewrite G6, G4. pose proof (G1 k) as [G1a G1b]. pose proof (G2 k) as [G2a G2b]. split; intro H.
    + destruct (G1a ltac:(lra)) as [L|L]; [exact L|]. specialize (G2b L). lra.
    + destruct (G1b ltac:(lra)) as [L|L]; [exact L|]. specialize (G2a L). lra.
Qed.
End Match.
