(** The angle difference of the matching as a function of the energy. *)
From Coq Require Import Reals ZArith Lra Lia Bool.
From Coquelicot Require Import Coquelicot.
From Coq Require Import List.
From Verif Require Import Base M_Sectors S_Sectors P_Lookup M_Core S_Core P_Core P_Core2 P_Prufer S_Formulas P_Terms2 S_Accuracy S_Zeros P_Lift P_Lift2 P_Cross P_Global2 P_Global3 P_Global5 P_Step P_Step2 P_Count P_Count2 P_Sturm P_Sturm2.
Import ListNotations.
Open Scope R_scope.

Lemma resolved_bounded : forall V (l : list sec), (forall s, In s l -> resolved V s) ->
  exists M, 0 <= M /\ forall s x, In s l -> smin s < x < smax s -> Rabs (V x) <= M.
Proof.
  intros V. induction l as [|s l IH]; intro H; [exists 0; split; [lra|intros s x []]|].
  destruct IH as (M & HM & B); [intros t Ht; apply H; right; exact Ht|]. destruct (H s ltac:(left; reflexivity)) as (_ & D & HD & _).
  exists (Rmax M (Rabs D + Rabs (v0 s))). split; [eapply Rle_trans; [exact HM|apply Rmax_l]|]. intros t x [<-|Ht] Hx.
  - eapply Rle_trans; [|apply Rmax_r]. specialize (HD x Hx). pose proof (Rle_abs D). pose proof (Rabs_triang (V x - v0 s) (v0 s)) as T. replace (V x - v0 s + v0 s) with (V x) in T by ring. lra.
  - eapply Rle_trans; [|apply Rmax_l]. apply (B t x Ht Hx).
Qed.

Section Match.
Variable calcT : sec -> R -> R -> bool -> Tm.
Variable vm : R.
Variables (l : list sec) (m : Z) (sm : sec) (lo hi : R) (V : R -> R) (left right : Y).
Hypothesis PT : partition lo hi l.
Hypothesis Hm : vget l m = Ret sm.
Hypothesis Hsm : smax sm < hi.
Hypothesis NL : nonzero left.
Hypothesis NR : nonzero right.
Notation c := (smax sm).

Lemma sm_in : In sm l.
Proof. unfold vget in Hm. destruct (m <? 0)%Z; [discriminate|]. destruct (nth_error l (Z.to_nat m)) eqn:Q; [|discriminate]. injection Hm as <-. apply (nth_error_In _ _ Q). Qed.

(** everything about one energy *)
Record side (E : R) (a : R) (y : Y) (rg : R -> Prop) (z z' A : R -> R) : Prop := {
  side_sol : solution V E lo hi l z z';
  side_nz : nontrivial z z' lo hi;
  side_0 : z a = y0 y; side_1 : z' a = y1 y;
  side_ang : ang 1 z z' lo hi A;
  side_rg : rg (A a) }.
Definition rgL (t : R) : Prop := 0 <= t < PI.
Definition rgR (t : R) : Prop := 0 < t <= PI.

Lemma rg_unique : forall y (rg : R -> Prop), nonzero y -> (rg = rgL \/ rg = rgR) -> forall E1 E2 a z1 z1' A1 z2 z2' A2, lo <= a <= hi ->
  side E1 a y rg z1 z1' A1 -> side E2 a y rg z2 z2' A2 -> A1 a = A2 a.
Proof.
  intros y rg Ny Hrg E1 E2 a z1 z1' A1 z2 z2' A2 Ha H1 H2. pose proof PIpos.
  assert (A1 a - A2 a = 0); [|lra]. apply mult_pi_small.
  - apply (angles_pi (y0 y) (y1 y)); [exact Ny| |].
    + pose proof (proj2 (side_ang _ _ _ _ _ _ _ H1) a Ha) as Q. cbv beta in Q. rewrite (side_0 _ _ _ _ _ _ _ H1), (side_1 _ _ _ _ _ _ _ H1) in Q. lra.
    + pose proof (proj2 (side_ang _ _ _ _ _ _ _ H2) a Ha) as Q. cbv beta in Q. rewrite (side_0 _ _ _ _ _ _ _ H2), (side_1 _ _ _ _ _ _ _ H2) in Q. lra.
  - pose proof (side_rg _ _ _ _ _ _ _ H1) as R1. pose proof (side_rg _ _ _ _ _ _ _ H2) as R2. destruct Hrg as [-> | ->]; unfold rgL, rgR in *; lra.
Qed.

Definition thL (E : R) : R := match propagate calcT vm l lo hi E left lo c true with Ret r => snd r | _ => 0 end.
Definition thR (E : R) : R := match propagate calcT vm l lo hi E right hi c true with Ret r => snd r | _ => 0 end.

Lemma at_energy : forall E, exact_at calcT V lo hi l c left right E ->
  (forall s, In s l -> smin s < smax s) /\ lo < c /\
  exists zL zL' AL zR zR' AR derr, side E lo left rgL zL zL' AL /\ side E hi right rgR zR zR' AR /\
    AL c = rescale (thL E) (/ scaling vm E) /\ AR c = rescale (thR E) (/ scaling vm E) /\
    rescale (AL c) (scaling vm E) = thL E /\ rescale (AR c) (scaling vm E) = thR E /\
    matchingError calcT vm l m lo hi E left right true = Ret (zL' c * zR c - zR' c * zL c, derr, thL E - thR E).
Proof.
  intros E (CL & CR & (zL & zL' & SL & L0 & L1) & (zR & zR' & SR & R0 & R1)). pose proof sm_in as Hin. pose proof (scaling_pos vm E) as HS. pose proof PIpos as HP.
  assert (forall s, In s l -> smin s < smax s) as Ho by (intros s Hs; apply (CL s Hs)).
  destruct (order_in l lo hi PT Ho) as [Hlh O]. destruct (O sm Hin) as [O1 O2]. pose proof (Ho sm Hin) as O3.
  destruct (resolved_bounded V l) as (M & HM & B); [intros s Hs; apply (CL s Hs)|].
  assert (nontrivial zL zL' lo hi) as NzL. { apply (nontrivial_at V l lo hi M PT Ho B HM E zL zL' lo SL ltac:(lra)). rewrite L0, L1. exact NL. }
  assert (nontrivial zR zR' lo hi) as NzR. { apply (nontrivial_at V l lo hi M PT Ho B HM E zR zR' hi SR ltac:(lra)). rewrite R0, R1. exact NR. }
  destruct (propagate_exact calcT vm l lo hi PT V E zL zL' SL NzL Ho true lo c left CL ltac:(lra) ltac:(lra) ltac:(lra) ltac:(lra)) as (ZL & tL & pL & PL & PL0 & PL1 & AgL & RgL & _ & TL).
  destruct (propagate_exact calcT vm l lo hi PT V E zR zR' SR NzR Ho true hi c right CR ltac:(lra) ltac:(lra) ltac:(lra) ltac:(lra)) as (ZR & tR & pR & PR & PR0 & PR1 & AgR & _ & RgR & TR).
  split; [exact Ho|]. split; [lra|].
  assert (0 < / scaling vm E) as Hi by (apply Rinv_0_lt_compat, HS).
  assert (1 / scaling vm E = / scaling vm E) as E1 by (unfold Rdiv; apply Rmult_1_l).
  exists zL, zL', (fun x => rescale (pL x) (/ scaling vm E)), zR, zR', (fun x => rescale (pR x) (/ scaling vm E)), (e1 ZL * y0 ZR + y1 ZL * e0 ZR - (e1 ZR * y0 ZL + y1 ZR * e0 ZL)).
  assert (thL E = pL c) as ETL by (unfold thL; rewrite PL; exact TL). assert (thR E = pR c) as ETR by (unfold thR; rewrite PR; exact TR).
  split.
  { constructor; auto.
    - rewrite <- E1. apply ang_rescale; [exact HS|lra|exact AgL].
    - unfold rgL. apply (rescale_range (pL lo) (/ scaling vm E) Hi). apply RgL. lra. }
  split.
  { constructor; auto.
    - rewrite <- E1. apply ang_rescale; [exact HS|lra|exact AgR].
    - unfold rgR. apply (rescale_range (pR hi) (/ scaling vm E) Hi). apply RgR. lra. }
  rewrite ETL, ETR. split; [reflexivity|]. split; [reflexivity|]. split; [apply rescale_inv, HS|]. split; [apply rescale_inv, HS|].
  unfold matchingError. rewrite Hm. cbn [bind]. rewrite PL. cbn [bind]. rewrite PR. cbn [bind]. f_equal. f_equal; [f_equal|].
  - rewrite PL0, PL1, PR0, PR1. ring.
  - rewrite TL, TR. ring.
Qed.

Lemma level_transfer : forall s a b k, 0 < s -> IZR k * PI <= rescale a s - rescale b s <-> IZR k * PI <= a - b.
Proof.
  intros s a b k Hs. pose proof (rescale_shift b k s) as Q. split; intro H.
  - destruct (Rle_lt_dec (b + IZR k * PI) a) as [L|L]; [lra|]. apply (rescale_lt s) in L; [|exact Hs]. lra.
  - assert (b + IZR k * PI <= a) as L by lra. apply (rescale_mono s) in L; [|exact Hs]. lra.
Qed.
Lemma level_transfer_lt : forall s a b k, 0 < s -> IZR k * PI < a - b -> IZR k * PI < rescale a s - rescale b s.
Proof. intros s a b k Hs H. pose proof (rescale_shift b k s) as Q. assert (b + IZR k * PI < a) as L by lra. apply (rescale_lt s) in L; [|exact Hs]. lra. Qed.

Lemma rises : forall E1 E2 k, E1 < E2 -> exact_at calcT V lo hi l c left right E1 -> exact_at calcT V lo hi l c left right E2 ->
  IZR k * PI <= thL E1 - thR E1 -> IZR k * PI < thL E2 - thR E2.
Proof.
  intros E1 E2 k HE X1 X2 H.
  destruct (at_energy E1 X1) as (Ho & Hc & z1 & z1' & A1 & w1 & w1' & B1 & d1 & L1 & R1 & _ & _ & T1 & T1' & _).
  destruct (at_energy E2 X2) as (_ & _ & z2 & z2' & A2 & w2 & w2' & B2 & d2 & L2 & R2 & _ & _ & T2 & T2' & _).
  rewrite <- T1, <- T1' in H. apply level_transfer in H; [|apply scaling_pos].
  rewrite <- T2, <- T2'. apply level_transfer_lt; [apply scaling_pos|].
  destruct (order_in l lo hi PT Ho) as [Hlh O].
  pose proof (rg_unique left rgL NL ltac:(left; reflexivity) E1 E2 lo _ _ _ _ _ _ ltac:(lra) L1 L2) as UL.
  pose proof (rg_unique right rgR NR ltac:(right; reflexivity) E1 E2 hi _ _ _ _ _ _ ltac:(lra) R1 R2) as UR.
  destruct L1, L2, R1, R2.
  pose proof (sturm l lo hi PT V E1 E2 1 HE ltac:(lra) z1 z1' z2 z2' side_sol0 side_sol1 side_nz0 side_nz1 Ho A1 A2 side_ang0 side_ang1 0 lo c ltac:(lra) Hc ltac:(lra)) as S1.
  pose proof (sturm l lo hi PT V E1 E2 1 HE ltac:(lra) w1 w1' w2 w2' side_sol2 side_sol3 side_nz2 side_nz3 Ho B1 B2 side_ang2 side_ang3 0 c hi ltac:(lra) Hsm ltac:(lra)) as S2.
  rewrite Rmult_0_l in S1, S2. specialize (S1 ltac:(lra)).
  destruct (Rle_lt_dec 0 (B2 c - B1 c)) as [L|L]; [specialize (S2 L); lra|]. lra.
Qed.

Lemma angles_cont : forall p q E0 a y rg (th : R -> R), p < E0 < q -> lo <= a <= hi -> lo <= c <= hi -> nonzero y -> (rg = rgL \/ rg = rgR) ->
  (forall E, p < E < q -> exists z z' A, side E a y rg z z' A /\ A c = th E) ->
  (forall s, In s l -> smin s < smax s) -> (exists M, 0 <= M /\ forall s x, In s l -> smin s < x < smax s -> Rabs (V x) <= M) -> continuous th E0.
Proof.
  intros p q E0 a y rg th HE Ha Hc Ny Hrg X Ho (M & HM & B). destruct (X E0 HE) as (z0 & z0' & A0 & S0 & T0).
  apply filterlim_locally. intros [eps He]. 
  destruct (angle_continuous V l lo hi M PT Ho B HM E0 z0 z0' A0 a eps He Ha (side_sol _ _ _ _ _ _ _ S0) (side_nz _ _ _ _ _ _ _ S0) (side_ang _ _ _ _ _ _ _ S0)) as (d & Hd & H).
  assert (0 < Rmin d (Rmin (E0 - p) (q - E0))) as Hd' by (repeat apply Rmin_glb_lt; lra).
  exists (mkposreal _ Hd'). intros E HB. unfold ball in *. cbn in *. unfold AbsRing_ball, abs, minus, plus, opp in *. cbn in *.
  pose proof (Rmin_l d (Rmin (E0 - p) (q - E0))). pose proof (Rmin_r d (Rmin (E0 - p) (q - E0))). pose proof (Rmin_l (E0 - p) (q - E0)). pose proof (Rmin_r (E0 - p) (q - E0)).
  fold (Rminus E E0) in HB. fold (Rminus (th E) (th E0)).
  assert (p < E < q) as HEpq by (apply Rabs_def2 in HB; lra). destruct (X E HEpq) as (z & z' & A & S & T). rewrite <- T, <- T0.
  apply (H E z z' A); try lra; try apply S; try (rewrite (side_0 _ _ _ _ _ _ _ S), (side_0 _ _ _ _ _ _ _ S0); reflexivity); try (rewrite (side_1 _ _ _ _ _ _ _ S), (side_1 _ _ _ _ _ _ _ S0); reflexivity).
  apply (rg_unique y rg Ny Hrg E E0 a z z' A z0 z0' A0 Ha S S0).
Qed.

Lemma difference_continuous : forall p q E0, p < E0 < q -> (forall E, p < E < q -> exact_at calcT V lo hi l c left right E) -> continuous (fun E => thL E - thR E) E0.
Proof.
  intros p q E0 HE X. destruct (at_energy E0 (X E0 HE)) as (Ho & Hc & _). destruct (order_in l lo hi PT Ho) as [Hlh _].
  destruct (X E0 HE) as (CL & _). destruct (resolved_bounded V l) as (M & HM & B); [intros s Hs; apply (CL s Hs)|].
  assert (continuous (fun E => rescale (thL E) (/ scaling vm E)) E0) as C1.
  { apply (angles_cont p q E0 lo left rgL); auto; try lra; [|exists M; auto]. intros E HE'. destruct (at_energy E (X E HE')) as (_ & _ & z & z' & A & _ & _ & _ & _ & S & _ & T & _). exists z, z', A. auto. }
  assert (continuous (fun E => rescale (thR E) (/ scaling vm E)) E0) as C2.
  { apply (angles_cont p q E0 hi right rgR); auto; try lra; [|exists M; auto]. intros E HE'. destruct (at_energy E (X E HE')) as (_ & _ & _ & _ & _ & z & z' & A & _ & _ & S & _ & T & _). exists z, z', A. auto. }
  apply (continuous_ext (fun E => rescale (rescale (thL E) (/ scaling vm E)) (scaling vm E) - rescale (rescale (thR E) (/ scaling vm E)) (scaling vm E))).
  { intro E. rewrite !rescale_inv by apply scaling_pos. reflexivity. }
  apply (continuous_minus (fun E => rescale (rescale (thL E) (/ scaling vm E)) (scaling vm E)) (fun E => rescale (rescale (thR E) (/ scaling vm E)) (scaling vm E)));
  apply rescale_continuous2; auto using scaling_continuous, scaling_pos.
Qed.
End Match.
