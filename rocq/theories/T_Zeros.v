(** C64: the angle returned by propagate counts the zeros of the solution; at an eigenvalue the angle difference of the
    matching step is pi times the number of zeros of the eigenfunction. *)
From Coq Require Import String Reals ZArith Lra Lia Bool.
From Coquelicot Require Import Coquelicot.
From Coq Require Import List FinFun.
From Verif Require Import Base S_Sectors M_Sectors P_Lookup M_Core S_Core P_Core P_Core2 P_Prufer S_Eta P_Eta S_Formulas M_Formulas P_Terms2 T_Formulas S_Accuracy S_Zeros
  P_Lift P_Lift2 P_Cross P_Global2 P_Global3 P_Step P_Step2 P_Count P_Count2 P_Global5 P_Constant.
Import ListNotations.
Open Scope R_scope.

(** ---- propagation with exact steps: value and slope are those of the solution; the returned angle is a continuous angle
    of the (scaled) solution along the way, which starts in [0, pi) (to the right) or (0, pi] (to the left) *)
Theorem C64_angle : forall calcT vm l lo hi V E z z' u a b y, partition lo hi l -> (forall s, In s l -> counting_ok calcT V E u a b s) ->
  solution V E lo hi l z z' -> nontrivial z z' lo hi -> lo <= a <= hi -> lo <= b <= hi -> y0 y = z a -> y1 y = z' a ->
  exists Z th phi, propagate calcT vm l lo hi E y a b u = Ret (Z, th) /\ y0 Z = z b /\ y1 Z = z' b /\
    lift (fun x => scaling vm E * z x) z' lo hi phi /\ (a <= b -> 0 <= phi a < PI) /\ (b < a -> 0 < phi a <= PI) /\ th = phi b.
Proof.
  intros calcT vm l lo hi V E z z' u a b y PT H Sol Nz Ha Hb Y0 Y1.
  apply (propagate_exact calcT vm l lo hi PT V E z z' Sol Nz); auto. intros s Hs. apply (H s Hs).
Qed.

Lemma remove_one : forall (z : R -> R) (P Q : R -> Prop) c zs, lists_zeros z P zs -> P c -> z c = 0 -> (forall x, Q x <-> P x /\ x <> c) ->
  exists ys, lists_zeros z Q ys /\ length zs = S (length ys).
Proof.
  intros z P Q c zs [N H] Pc Zc HQ. assert (In c zs) as Hc by (apply H; auto). apply in_split in Hc as (l1 & l2 & ->).
  exists (l1 ++ l2). split.
  - split; [apply (NoDup_remove_1 _ _ _ N)|]. intro x. rewrite HQ. pose proof (H x) as Hx. rewrite in_app_iff in *. cbn in Hx. split.
    + intro Hi. assert (x <> c) by (intros ->; apply (NoDup_remove_2 _ _ _ N); apply in_app_iff; exact Hi). tauto.
    + intros [[Px Nx] Zx]. destruct (proj2 Hx (conj Px Zx)) as [?|[?|?]]; [left; assumption|congruence|right; assumption].
  - rewrite !app_length. cbn. lia.
Qed.
Lemma same_zeros : forall (z : R -> R) (P Q : R -> Prop) zs, lists_zeros z P zs -> (forall x, z x = 0 -> (P x <-> Q x)) -> lists_zeros z Q zs.
Proof. intros z P Q zs [N H] HQ. split; [exact N|]. intro x. rewrite H. split; intros [Hx Zx]; (split; [apply (HQ x Zx), Hx|exact Zx]). Qed.

(** going right, the angle is in [n pi, (n+1) pi) where n is the number of zeros passed, the target included *)
Theorem C64_zeros_right : forall calcT vm l lo hi V E z z' u a b y, partition lo hi l -> (forall s, In s l -> counting_ok calcT V E u a b s) ->
  solution V E lo hi l z z' -> nontrivial z z' lo hi -> lo <= a -> a <= b -> b <= hi -> y0 y = z a -> y1 y = z' a ->
  exists Z th zs, propagate calcT vm l lo hi E y a b u = Ret (Z, th) /\ lists_zeros z (fun x => a < x <= b) zs /\
    INR (length zs) * PI <= th < (INR (length zs) + 1) * PI.
Proof.
  intros calcT vm l lo hi V E z z' u a b y PT H Sol Nz Ha Hab Hb Y0 Y1. pose proof PIpos as HP.
  assert (forall s, In s l -> smin s < smax s) as Ho by (intros s Hs; apply (H s Hs)).
  destruct (C64_angle calcT vm l lo hi V E z z' u a b y PT H Sol Nz ltac:(lra) ltac:(lra) Y0 Y1) as (Z & th & phi & P & _ & _ & A & R1 & _ & ->).
  destruct (global_count l lo hi PT V E z z' Sol Nz Ho (scaling vm E) phi a b (scaling_pos vm E) A Ha Hab Hb) as (zs & L & F).
  exists Z, (phi b), zs. split; [exact P|]. split; [exact L|]. rewrite (flr_unique (phi a) 0) in F by (specialize (R1 Hab); cbn; lra).
  cbn in F. rewrite INR_IZR_INZ, <- F. apply flr_spec.
Qed.
(** going left, every zero strictly between target and start takes pi off the angle *)
Theorem C64_zeros_left : forall calcT vm l lo hi V E z z' u a b y, partition lo hi l -> (forall s, In s l -> counting_ok calcT V E u a b s) ->
  solution V E lo hi l z z' -> nontrivial z z' lo hi -> lo <= b -> b < a -> a <= hi -> y0 y = z a -> y1 y = z' a ->
  exists Z th zs, propagate calcT vm l lo hi E y a b u = Ret (Z, th) /\ lists_zeros z (fun x => b < x < a) zs /\
    - INR (length zs) * PI <= th < (1 - INR (length zs)) * PI.
Proof.
  intros calcT vm l lo hi V E z z' u a b y PT H Sol Nz Hb Hba Ha Y0 Y1. pose proof PIpos as HP.
  assert (forall s, In s l -> smin s < smax s) as Ho by (intros s Hs; apply (H s Hs)).
  destruct (C64_angle calcT vm l lo hi V E z z' u a b y PT H Sol Nz ltac:(lra) ltac:(lra) Y0 Y1) as (Z & th & phi & P & _ & _ & A & _ & R1 & ->).
  destruct (global_count l lo hi PT V E z z' Sol Nz Ho (scaling vm E) phi b a (scaling_pos vm E) A Hb ltac:(lra) Ha) as (zs & L & F).
  specialize (R1 Hba). pose proof (flr_spec (phi b)) as S. exists Z, (phi b).
  destruct (Req_dec (z a) 0) as [Z0|Z0].
  - destruct (remove_one z (fun x => b < x <= a) (fun x => b < x < a) a zs L ltac:(lra) Z0) as (ys & L2 & EL).
    { intro x. split; [intro; split; [lra|]; intro; lra|]. intros [? ?]. destruct (Rle_lt_dec a x); lra. }
    exists ys. split; [exact P|]. split; [exact L2|].
    destruct (proj1 (ang_zero (scaling vm E) z z' lo hi phi (scaling_pos vm E) Nz A a ltac:(lra)) Z0) as [k Ek].
    assert (k = 1)%Z. { assert (0 < IZR k) by (apply (Rmult_lt_reg_r PI); lra). assert (IZR k <= 1) by (apply (Rmult_le_reg_r PI); lra). apply lt_IZR in H0. apply le_IZR in H1. lia. }
    subst k. rewrite (flr_unique (phi a) 1) in F by (rewrite Ek; lra). rewrite EL in F. rewrite Nat2Z.inj_succ in F.
    assert (flr (phi b) = - Z.of_nat (length ys))%Z as F' by lia. rewrite F', opp_IZR, <- INR_IZR_INZ in S. lra.
  - exists zs. split; [exact P|]. split.
    + apply (same_zeros z (fun x => b < x <= a)); [exact L|]. intros x Zx. split; [|lra]. intros [H1 [H2|H2]]; [lra|subst; contradiction].
    + assert (phi a <> PI). { intro Q. apply Z0. apply (ang_zero (scaling vm E) z z' lo hi phi (scaling_pos vm E) Nz A a ltac:(lra)). exists 1%Z. lra. }
      rewrite (flr_unique (phi a) 0) in F by (cbn; lra).
      assert (flr (phi b) = - Z.of_nat (length zs))%Z as F' by lia. rewrite F', opp_IZR, <- INR_IZR_INZ in S. lra.
Qed.

Lemma solution_scale : forall V E lo hi l z z' k, solution V E lo hi l z z' -> solution V E lo hi l (fun x => k * z x) (fun x => k * z' x).
Proof.
  intros V E lo hi l z z' k [C D]. split.
  - intros x Hx. destruct (C x Hx). split; apply (continuous_mult (fun _ => k)); auto using continuous_const.
  - intros s x Hs Hx. destruct (D s x Hs Hx) as [D1 D2]. split.
    + apply (is_derive_scal z x k (z' x) D1).
    + replace ((V x - E) * (k * z x)) with (k * ((V x - E) * z x)) by ring. apply (is_derive_scal z' x k _ D2).
Qed.

(** ---- matching: at an eigenvalue E of the exact problem with eigenfunction z, the matching error is 0 and the angle
    difference is pi times the number of zeros of z strictly inside the interval - the index of the eigenvalue *)
Theorem C64_matching : forall calcT vm l m sm lo hi V E z z' u left right kl kr, partition lo hi l -> vget l m = Ret sm ->
  (forall s, In s l -> counting_ok calcT V E u lo (smax sm) s) -> (forall s, In s l -> counting_ok calcT V E u hi (smax sm) s) ->
  solution V E lo hi l z z' -> nontrivial z z' lo hi -> kl <> 0 -> kr <> 0 -> smax sm < hi ->
  y0 left = kl * z lo -> y1 left = kl * z' lo -> y0 right = kr * z hi -> y1 right = kr * z' hi ->
  exists derr zs, lists_zeros z (fun x => lo < x < hi) zs /\
    matchingError calcT vm l m lo hi E left right u = Ret (0, derr, INR (length zs) * PI).
Proof.
  intros calcT vm l m sm lo hi V E z z' u left right kl kr PT Hm CL CR Sol Nz Hkl Hkr Hsm L0 L1 R0 R1. pose proof PIpos as HP. pose proof (scaling_pos vm E) as HS.
  assert (In sm l) as Hin. { unfold vget in Hm. destruct (m <? 0)%Z; [discriminate|]. destruct (nth_error l (Z.to_nat m)) eqn:Q; [|discriminate]. injection Hm as <-. apply (nth_error_In _ _ Q). }
  assert (forall s, In s l -> smin s < smax s) as Ho by (intros s Hs; apply (CL s Hs)).
  destruct (order_in l lo hi PT Ho) as [Hlh O]. destruct (O sm Hin) as [O1 O2]. pose proof (Ho sm Hin) as O3.
  assert (forall k, k <> 0 -> nontrivial (fun x => k * z x) (fun x => k * z' x) lo hi) as Nk.
  { intros k Hk x Hx. destruct (Nz x Hx); [left|right]; apply Rmult_integral_contrapositive_currified; assumption. }
  assert (forall k phi, k <> 0 -> lift (fun x => scaling vm E * (k * z x)) (fun x => k * z' x) lo hi phi -> lift (fun x => scaling vm E * z x) z' lo hi phi) as Un.
  { intros k phi Hk [C A]. split; [exact C|]. intros x Hx. apply (Rmult_eq_reg_l k); [|exact Hk]. pose proof (A x Hx) as B. cbv beta in B. lra. }
  destruct (C64_angle calcT vm l lo hi V E _ _ u lo (smax sm) left PT CL (solution_scale _ _ _ _ _ _ _ kl Sol) (Nk kl Hkl) ltac:(lra) ltac:(lra) L0 L1)
    as (ZL & thL & p1 & PL & PL0 & PL1 & A1 & B1 & _ & ET).
  destruct (C64_angle calcT vm l lo hi V E _ _ u hi (smax sm) right PT CR (solution_scale _ _ _ _ _ _ _ kr Sol) (Nk kr Hkr) ltac:(lra) ltac:(lra) R0 R1)
    as (ZR & thR & p2 & PR & PR0 & PR1 & A2 & _ & B2 & ET2).
  apply Un in A1; [|exact Hkl]. apply Un in A2; [|exact Hkr]. specialize (B1 ltac:(lra)). specialize (B2 Hsm).
  assert (multiple_of_pi (p1 hi - p2 hi)) as [k Ek].
  { apply (angles_pi (scaling vm E * z hi) (z' hi)); [apply (scaled_nz _ z z' lo hi HS Nz); lra|apply A1; lra|apply A2; lra]. }
  assert (p1 (smax sm) - p2 (smax sm) = IZR k * PI) as Em.
  { pose proof (lift_unique (fun x => scaling vm E * z x) z' lo hi p1 p2 (scaled_nz _ z z' lo hi HS Nz) A1 A2) as Q. pose proof (Q (smax sm) ltac:(lra)). pose proof (Q hi ltac:(lra)). lra. }
  destruct (global_count l lo hi PT V E z z' Sol Nz Ho (scaling vm E) p1 lo hi HS A1 ltac:(lra) Hlh ltac:(lra)) as (zs & L & F).
  rewrite (flr_unique (p1 lo) 0) in F by (cbn; lra). cbn in F.
  assert (exists ys, lists_zeros z (fun x => lo < x < hi) ys /\ k = Z.of_nat (length ys)) as (ys & LY & KY).
  { destruct (Req_dec (z hi) 0) as [Z0|Z0].
    - destruct (remove_one z (fun x => lo < x <= hi) (fun x => lo < x < hi) hi zs L ltac:(lra) Z0) as (ys & L2 & EL).
      { intro x. split; [intro; split; [lra|]; intro; lra|]. intros [? ?]. destruct (Rle_lt_dec hi x); lra. }
      exists ys. split; [exact L2|].
      destruct (proj1 (ang_zero (scaling vm E) z z' lo hi p2 HS Nz A2 hi ltac:(lra)) Z0) as [j Ej].
      assert (j = 1)%Z. { assert (0 < IZR j) as Q1 by (apply (Rmult_lt_reg_r PI); lra). assert (IZR j <= 1) as Q2 by (apply (Rmult_le_reg_r PI); lra). apply lt_IZR in Q1. apply le_IZR in Q2. lia. }
      subst j. rewrite (flr_unique (p1 hi) (k + 1)) in F by (rewrite plus_IZR; lra). lia.
    - exists zs. split.
      + apply (same_zeros z (fun x => lo < x <= hi)); [exact L|]. intros x Zx. split; [|lra]. intros [H1 [H2|H2]]; [lra|subst; contradiction].
      + assert (p2 hi <> PI). { intro Q. apply Z0. apply (ang_zero (scaling vm E) z z' lo hi p2 HS Nz A2 hi ltac:(lra)). exists 1%Z. lra. }
        rewrite (flr_unique (p1 hi) k) in F by lra. exact F. }
  exists (e1 ZL * y0 ZR + y1 ZL * e0 ZR - (e1 ZR * y0 ZL + y1 ZR * e0 ZL)), ys. split; [exact LY|].
  unfold matchingError. rewrite Hm. cbn [bind]. rewrite PL. cbn [bind]. rewrite PR. cbn [bind]. f_equal. f_equal; [f_equal|].
  - rewrite PL0, PL1, PR0, PR1. ring.
  - rewrite ET, ET2, INR_IZR_INZ, <- KY. exact Em.
Qed.

(** ---- an instance without assumptions on the step matrices: piecewise constant potentials, with the step matrices of the code
    (over exact eta functions), sectors longer than 10^-12 *)
Definition constant_problem (V : R -> R) (lo hi : R) (l : list sec) : Prop :=
  partition lo hi l /\ forall s, In s l -> directed s /\ / 10 ^ 12 < sh s /\ constant_on V s.

Lemma constant_order : forall V lo hi l, constant_problem V lo hi l -> forall s, In s l -> smin s < smax s.
Proof. intros V lo hi l [_ H] s Hs. destruct (H s Hs) as (_ & Hh & _). assert (0 < / 10 ^ 12) by (apply Rinv_0_lt_compat, pow_lt; lra). unfold sh in Hh. lra. Qed.
Lemma nontrivial_if : forall V lo hi l E z z' a, constant_problem V lo hi l -> solution V E lo hi l z z' -> lo <= a <= hi -> z a <> 0 \/ z' a <> 0 -> nontrivial z z' lo hi.
Proof.
  intros V lo hi l E z z' a PC Sol Ha Na x Hx. pose proof (constant_order V lo hi l PC) as Ho. destruct PC as [PT H].
  destruct (bounded_const V l) as (M & HM & B); [intros s Hs; apply (H s Hs)|].
  destruct (Req_dec (z x) 0) as [Z|Z]; [|left; exact Z]. destruct (Req_dec (z' x) 0) as [Z'|Z']; [|right; exact Z']. exfalso.
  destruct (solution_unique V l lo hi M (proj2 PT) ltac:(intros s Hs; left; apply Ho, Hs) B HM E z z' z z' Sol Sol 0 x Hx ltac:(lra) ltac:(lra) a Ha) as [U1 U2]. lra.
Qed.
Lemma constant_counting : forall V lo hi l E u a b, constant_problem V lo hi l -> (a = lo \/ a = hi \/ exists s, In s l /\ a = smax s) ->
  (b = lo \/ b = hi \/ exists s, In s l /\ b = smax s) -> forall s, In s l -> counting_ok (calculateT eta_exact) V E u a b s.
Proof.
  intros V lo hi l E u a b PC Ha Hb s Hs. pose proof (constant_order V lo hi l PC) as Ho. destruct PC as [PT H]. destruct (H s Hs) as (Dd & Hh & Hc).
  assert (forall x, (x = lo \/ x = hi \/ exists s, In s l /\ x = smax s) -> reachable s x) as Rx.
  { intros x Hx. apply reachable_outside; [exact Dd|exact Hh|]. destruct (order_in l lo hi PT Ho) as [_ O]. destruct (O s Hs).
    destruct Hx as [->|[->|(t & Ht & ->)]]; [left; lra|right; lra|]. destruct (chain_ends l lo hi (proj2 PT) Ho t s Ht Hs); [left|right]; lra. }
  apply const_counting_ok; auto.
Qed.
Lemma parallel : forall a b c d, a <> 0 \/ b <> 0 -> c <> 0 \/ d <> 0 -> a * d = b * c -> exists k, k <> 0 /\ c = k * a /\ d = k * b.
Proof.
  intros a b c d N1 N2 H. destruct (Req_dec a 0) as [Z|Z].
  - subst a. assert (b <> 0) as Nb by (destruct N1; [congruence|assumption]). assert (c = 0) as C0 by (apply (Rmult_eq_reg_l b); [lra|exact Nb]).
    exists (d / b). split; [|split; [rewrite C0; ring|field; exact Nb]]. destruct N2; [congruence|]. apply Rmult_integral_contrapositive_currified; [assumption|apply Rinv_neq_0_compat, Nb].
  - exists (c / a). assert (d = c / a * b) as Ed by (apply (Rmult_eq_reg_l a); [rewrite H; field; exact Z|exact Z]).
    split; [|split; [field; exact Z|exact Ed]]. intro K. rewrite K, Rmult_0_l in Ed. destruct N2 as [N2|N2]; [|lra].
    apply N2. replace c with (c / a * a) by (field; exact Z). rewrite K. ring.
Qed.

(** at every eigenvalue, the error is 0 and the angle difference is pi times the number of zeros of the eigenfunction *)
Theorem C64_piecewise_constant : forall V lo hi l vm m sm E u left right, constant_problem V lo hi l -> vget l m = Ret sm -> smax sm < hi ->
  nonzero right -> eigenvalue V E lo hi l left right ->
  exists z z' derr zs, solution V E lo hi l z z' /\ nontrivial z z' lo hi /\ z lo = y0 left /\ z' lo = y1 left /\ z hi * y1 right = z' hi * y0 right /\
    lists_zeros z (fun x => lo < x < hi) zs /\
    matchingError (calculateT eta_exact) vm l m lo hi E left right u = Ret (0, derr, INR (length zs) * PI).
Proof.
  intros V lo hi l vm m sm E u left right PC Hm Hsm Nr (z & z' & Sol & L0 & L1 & Nl & HR).
  pose proof (constant_order V lo hi l PC) as Ho. pose proof PC as [PT H]. destruct (order_in l lo hi PT Ho) as [Hlh O].
  assert (In sm l) as Hin. { unfold vget in Hm. destruct (m <? 0)%Z; [discriminate|]. destruct (nth_error l (Z.to_nat m)) eqn:Q; [|discriminate]. injection Hm as <-. apply (nth_error_In _ _ Q). }
  pose proof (nontrivial_if V lo hi l E z z' lo PC Sol ltac:(lra) Nl) as Nz.
  destruct (parallel (z hi) (z' hi) (y0 right) (y1 right) (Nz hi ltac:(lra)) Nr HR) as (kr & Hkr & R0 & R1).
  destruct (C64_matching (calculateT eta_exact) vm l m sm lo hi V E z z' u left right 1 kr PT Hm) as (derr & zs & LZ & ME); try assumption; try lra.
  - apply (constant_counting V lo hi l); [exact PC|left; reflexivity|right; right; exists sm; auto].
  - apply (constant_counting V lo hi l); [exact PC|right; left; reflexivity|right; right; exists sm; auto].
  - exists z, z', derr, zs. split; [exact Sol|]. split; [exact Nz|]. split; [exact L0|]. split; [exact L1|]. split; [exact HR|]. split; [exact LZ|exact ME].
Qed.

(** sin (n pi x) / (n pi) on [0, 1]: the n-th eigenfunction for V = 0 with Dirichlet conditions *)
Definition wave (n : R) (x : R) : R := sin (n * PI * x) / (n * PI).
Definition wave' (n : R) (x : R) : R := cos (n * PI * x).
Lemma wave_solution : forall n l, 0 < n -> solution (fun _ => 0) ((n * PI) * (n * PI)) 0 1 l (wave n) (wave' n).
Proof.
  intros n l Hn. pose proof PIpos as HP. assert (0 < n * PI) as Hw by (apply Rmult_lt_0_compat; lra).
  assert (forall x, is_derive (wave n) x (wave' n x)) as D1 by (intro x; unfold wave, wave'; auto_derive; [exact I|field; lra]).
  assert (forall x, is_derive (wave' n) x ((0 - (n * PI) * (n * PI)) * wave n x)) as D2 by (intro x; unfold wave, wave'; auto_derive; [exact I|field; lra]).
  split.
  - intros x _. split; [apply (ex_derive_continuous (wave n)); eexists; apply D1|apply (ex_derive_continuous (wave' n)); eexists; apply D2].
  - intros s x _ _. split; [apply D1|apply D2].
Qed.
Definition two_sectors : list sec := [mkSector 0 (1 / 2) Dfwd [0]; mkSector (1 / 2) 1 Dbwd [0]].
Lemma two_sectors_ok : constant_problem (fun _ => 0) 0 1 two_sectors.
Proof.
  assert (/ 10 ^ 12 < 1 / 2). { replace (1 / 2) with (/ 2) by field. apply Rinv_lt_contravar; [apply Rmult_lt_0_compat; [lra|apply pow_lt; lra]|]. apply Rlt_le_trans with (10 ^ 1); [lra|]. apply Rle_pow; [lra|lia]. }
  split.
  - split; [discriminate|]. cbn. repeat split; reflexivity.
  - intros s [<-|[<-|[]]]; (split; [unfold directed; cbn; auto|]); (split; [unfold sh; cbn [smin smax]; lra|]); (split; [|reflexivity]); intros k Hk; destruct k as [|[|k]]; try lia; reflexivity.
Qed.
Lemma dirichlet_wave : forall l, eigenvalue (fun _ => 0) ((2 * PI) * (2 * PI)) 0 1 l (mkY 0 1 0 0) (mkY 0 1 0 0).
Proof.
  intro l. exists (wave 2), (wave' 2). split; [apply wave_solution; lra|]. unfold wave, wave'. cbn [y0 y1]. rewrite Rmult_0_r, sin_0, cos_0.
  pose proof PIpos. split; [field; lra|]. split; [reflexivity|]. split; [right; lra|]. rewrite !Rmult_1_r, sin_2PI, cos_2PI. field. lra.
Qed.
(** two sectors, second Dirichlet eigenvalue: one zero, at the matching point; the returned angle difference is pi *)
Example C64_case : forall u, constant_problem (fun _ => 0) 0 1 two_sectors /\ eigenvalue (fun _ => 0) ((2 * PI) * (2 * PI)) 0 1 two_sectors (mkY 0 1 0 0) (mkY 0 1 0 0) /\
  lists_zeros (wave 2) (fun x => 0 < x < 1) [1 / 2] /\
  exists derr, matchingError (calculateT eta_exact) 0 two_sectors 0 0 1 ((2 * PI) * (2 * PI)) (mkY 0 1 0 0) (mkY 0 1 0 0) u = Ret (0, derr, PI).
Proof.
  intro u. pose proof PIpos as HP. split; [apply two_sectors_ok|]. split; [apply dirichlet_wave|].
  assert (lists_zeros (wave 2) (fun x => 0 < x < 1) [1 / 2]) as LZ.
  { split; [repeat constructor; intros []|]. intro x. cbn [In]. split.
    - intros [<-|[]]. split; [lra|]. unfold wave. replace (2 * PI * (1 / 2)) with PI by field. rewrite sin_PI. field. lra.
    - intros [Hx Z]. left. unfold wave in Z. assert (sin (2 * PI * x) = 0) as S0. { apply (Rmult_eq_reg_r (/ (2 * PI))); [rewrite Rmult_0_l; exact Z|apply Rinv_neq_0_compat; lra]. }
      apply sin_zero_multiple in S0 as [k Ek]. assert (2 * x = IZR k) as E2 by (apply (Rmult_eq_reg_r PI); lra).
      assert (0 < IZR k) as K1 by lra. assert (IZR k < 2) as K2 by lra. apply lt_IZR in K1, K2. assert (k = 1)%Z by lia. subst k. lra. }
  split; [exact LZ|].
  destruct (C64_piecewise_constant (fun _ => 0) 0 1 two_sectors 0 0 (mkSector 0 (1 / 2) Dfwd [0]) ((2 * PI) * (2 * PI)) u (mkY 0 1 0 0) (mkY 0 1 0 0) two_sectors_ok)
    as (z & z' & derr & zs & Sol & _ & Z0 & Z1 & _ & LZ2 & ME); [reflexivity|cbn [smax]; lra|right; cbn [y1]; lra|apply dirichlet_wave|].
  exists derr. rewrite ME. do 2 f_equal.
  (* z is the wave *)
  assert (forall x, 0 <= x <= 1 -> z x = 1 * wave 2 x) as Ez.
  { intros x Hx. destruct (bounded_const (fun _ => 0) two_sectors) as (M & HM & B); [intros s Hs y Hy; destruct Hs as [<-|[<-|[]]]; reflexivity|].
    apply (solution_unique (fun _ => 0) two_sectors 0 1 M (proj2 (proj1 two_sectors_ok))) with (E := (2 * PI) * (2 * PI)) (y' := z') (z' := wave' 2) (a := 0); try lra; auto.
    - intros s Hs. left. apply (constant_order _ _ _ _ two_sectors_ok s Hs).
    - apply wave_solution. lra.
    - cbn [y0] in Z0. rewrite Z0. unfold wave. rewrite Rmult_0_r, sin_0. field. lra.
    - cbn [y1] in Z1. rewrite Z1. unfold wave'. rewrite Rmult_0_r, cos_0. ring. }
  assert (length zs = 1%nat) as ->; [|cbn; ring].
  destruct LZ2 as [N2 H2]. destruct LZ as [N1 H1].
  assert (forall x, In x zs <-> In x [1 / 2]) as Same.
  { intro x. rewrite H1, H2. split; intros [Hx Hz]; (split; [exact Hx|]); rewrite Ez in * by lra; lra. }
  apply Nat.le_antisymm.
  - change 1%nat with (length [1 / 2]). apply NoDup_incl_length; [exact N2|]. intros x Hx. apply Same, Hx.
  - change 1%nat with (length [1 / 2]) at 1. apply NoDup_incl_length; [exact N1|]. intros x Hx. apply Same, Hx.
Qed.

(** The restriction to matching points before the right end is needed: with a single sector (steps = 1) the matching point is the
    right end itself, the right propagation does not move, its angle stays in [0, pi) instead of (0, pi], and a Dirichlet
    eigenvalue gets an index one too high: V = 0 on [0, 1], E = pi^2, eigenfunction sin (pi x) without zeros inside, but the angle
    difference is pi (index 1). *)
Theorem C64_single_sector_refuted : exists V lo hi l vm E left right (z z' : R -> R), uniform_build (fun _ _ _ => [0]) (fun _ _ => true) 5 1 0 1 = Ret (l, 0%Z) /\
  constant_problem V lo hi l /\ solution V E lo hi l z z' /\ nontrivial z z' lo hi /\
  y0 left = z lo /\ y1 left = z' lo /\ y0 right = - z hi /\ y1 right = - z' hi /\ lists_zeros z (fun x => lo < x < hi) [] /\
  forall u, exists derr, matchingError (calculateT eta_exact) vm l 0 lo hi E left right u = Ret (0, derr, PI).
Proof.
  pose proof PIpos as HP. set (l := [mkSector 0 1 Dfwd [0] : sec]).
  assert (/ 10 ^ 12 < 1). { rewrite <- Rinv_1. apply Rinv_lt_contravar; [apply Rmult_lt_0_compat; [lra|apply pow_lt; lra]|]. apply Rlt_le_trans with (10 ^ 1); [lra|]. apply Rle_pow; [lra|lia]. }
  assert (constant_problem (fun _ => 0) 0 1 l) as PC.
  { split; [split; [discriminate|cbn; split; reflexivity]|]. intros s [<-|[]]. split; [left; reflexivity|]. split; [unfold sh; cbn [smin smax]; lra|].
    split; [|reflexivity]. intros k Hk; destruct k as [|[|k]]; try lia; reflexivity. }
  assert (wave 1 0 = 0) as W0 by (unfold wave; rewrite Rmult_0_r, sin_0; field; lra). assert (wave' 1 0 = 1) as W0' by (unfold wave'; rewrite Rmult_0_r; apply cos_0).
  assert (wave 1 1 = 0) as W1 by (unfold wave; rewrite Rmult_1_r, Rmult_1_l, sin_PI; field; lra). assert (wave' 1 1 = -1) as W1' by (unfold wave'; rewrite Rmult_1_r, Rmult_1_l; apply cos_PI).
  pose proof (wave_solution 1 l ltac:(lra)) as Sol.
  pose proof (nontrivial_if _ _ _ _ _ _ _ 0 PC Sol ltac:(lra) ltac:(right; lra)) as Nz.
  exists (fun _ => 0), 0, 1, l, 0, ((1 * PI) * (1 * PI)), (mkY 0 1 0 0), (mkY 0 1 0 0), (wave 1), (wave' 1).
  split; [reflexivity|]. split; [exact PC|]. split; [exact Sol|]. split; [exact Nz|]. cbn [y0 y1]. rewrite W0, W0', W1, W1'.
  split; [reflexivity|]. split; [reflexivity|]. split; [ring|]. split; [ring|].
  assert (lists_zeros (wave 1) (fun x => 0 < x < 1) []) as LZ.
  { split; [constructor|]. intro x. split; [intros []|]. intros [Hx Z]. cbn. unfold wave in Z.
    assert (0 < sin (1 * PI * x)) by (apply sin_gt_0; nra). assert (0 < sin (1 * PI * x) / (1 * PI)) by (apply Rdiv_lt_0_compat; lra). lra. }
  split; [exact LZ|]. intro u.
  destruct (C64_zeros_right (calculateT eta_exact) 0 l 0 1 _ _ _ _ u 0 1 (mkY 0 1 0 0) (proj1 PC) ltac:(apply (constant_counting _ _ _ _ _ _ _ _ PC); [left|right; left]; reflexivity) Sol Nz) as (ZL & th & zs & PL & LZ2 & TH); try lra; [cbn [y0]; lra|cbn [y1]; lra|].
  assert (length zs = 1%nat) as Lz.
  { destruct (remove_one (wave 1) (fun x => 0 < x <= 1) (fun x => 0 < x < 1) 1 zs LZ2 ltac:(lra) W1) as (ys & [_ LY] & ->).
    { intro x. split; [intro; split; [lra|]; intro; lra|]. intros [? ?]. destruct (Rle_lt_dec 1 x); lra. }
    destruct ys as [|y ys]; [reflexivity|]. exfalso. destruct (proj1 (LY y) ltac:(left; reflexivity)) as [Hy Zy]. destruct LZ as [_ LZ]. apply (proj2 (LZ y) (conj Hy Zy)). }
  rewrite Lz in TH. cbn in TH.
  destruct (C64_angle (calculateT eta_exact) 0 l 0 1 _ _ _ _ u 0 1 (mkY 0 1 0 0) (proj1 PC) ltac:(apply (constant_counting _ _ _ _ _ _ _ _ PC); [left|right; left]; reflexivity) Sol Nz) as (ZL2 & th2 & phi & PL2 & B0 & B1 & A & _ & _ & ET); try lra; [cbn [y0]; lra|cbn [y1]; lra|].
  rewrite PL in PL2. injection PL2 as <- <-.
  assert (th = PI) as Eth.
  { destruct (proj1 (ang_zero _ _ _ _ _ _ (scaling_pos 0 _) Nz A 1 ltac:(lra)) W1) as [k Ek]. rewrite <- ET in Ek.
    assert (0 < IZR k) as K1 by (apply (Rmult_lt_reg_r PI); lra). assert (IZR k < 2) as K2 by (apply (Rmult_lt_reg_r PI); lra). apply lt_IZR in K1, K2. assert (k = 1)%Z by lia. subst k. lra. }
  assert (solution (fun _ => 0) ((1 * PI) * (1 * PI)) 0 1 l (fun x => -1 * wave 1 x) (fun x => -1 * wave' 1 x)) as Sol2 by (apply solution_scale, Sol).
  assert (nontrivial (fun x => -1 * wave 1 x) (fun x => -1 * wave' 1 x) 0 1) as Nz2 by (intros x Hx; destruct (Nz x Hx); [left|right]; lra).
  destruct (C64_angle (calculateT eta_exact) 0 l 0 1 _ _ _ _ u 1 1 (mkY 0 1 0 0) (proj1 PC) ltac:(apply (constant_counting _ _ _ _ _ _ _ _ PC); right; left; reflexivity) Sol2 Nz2) as (ZR & thR & psi & PR & C0 & C1 & A2 & RG & _ & ET2); try lra; [cbn [y0]; lra|cbn [y1]; lra|].
  assert (thR = 0) as EthR.
  { destruct (proj1 (ang_zero _ _ _ _ _ _ (scaling_pos 0 _) Nz2 A2 1 ltac:(lra)) ltac:(lra)) as [k Ek]. specialize (RG ltac:(lra)). rewrite <- ET2 in Ek, RG.
    assert (-1 < IZR k) as K1 by (apply (Rmult_lt_reg_r PI); lra). assert (IZR k < 1) as K2 by (apply (Rmult_lt_reg_r PI); lra). apply lt_IZR in K1, K2. assert (k = 0)%Z by lia. subst k. lra. }
  eexists. unfold matchingError. cbn [vget l Z.ltb Z.compare Z.to_nat nth_error bind smax]. rewrite PL. cbn [bind]. rewrite PR. cbn [bind]. f_equal. f_equal; [f_equal|].
  - rewrite B0, C0, W1. ring.
  - rewrite Eth, EthR. ring.
Qed.

Print Assumptions C64_angle.
Print Assumptions C64_zeros_right.
Print Assumptions C64_zeros_left.
Print Assumptions C64_matching.
Print Assumptions C64_piecewise_constant.
Print Assumptions C64_single_sector_refuted.
