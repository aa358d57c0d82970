(** Propagation with exact steps: value, slope, angle, number of zeros. *)
From Coq Require Import Reals ZArith Lra Lia Bool.
From Coquelicot Require Import Coquelicot.
From Coq Require Import List.
From Verif Require Import Base M_Sectors S_Sectors P_Lookup M_Core S_Core P_Core P_Core2 P_Prufer S_Formulas P_Terms2 S_Accuracy S_Zeros P_Lift P_Lift2 P_Cross P_Global2 P_Global3 P_Step P_Step2 P_Count.
Import ListNotations.
Open Scope R_scope.

Section Path.
Variable calcT : sec -> R -> R -> bool -> Tm.
Variable vm : R.
Notation run := (run calcT vm).
Variables (l : list sec) (lo hi : R).
Hypothesis PT : partition lo hi l.

Lemma path_run_up i j si sj E a b u st : (forall s, In s l -> smin s <= smax s) ->
  nth_error l i = Some si -> contains si a = true -> nth_error l j = Some sj -> contains sj b = true -> (i <= j)%nat -> a <= b ->
  run (path l i j) E a b u st = run l E a b u st.
Proof.
  intros O Hi Ca Hj Cb L Hab. apply contains_R in Ca, Cb.
  unfold path. destruct (Nat.leb_spec i j); [|lia].
  assert (EL : l = firstn i l ++ firstn (j - i + 1) (skipn i l) ++ skipn (j + 1) l).
  { rewrite <- (firstn_skipn i l) at 1. f_equal. rewrite <- (firstn_skipn (j - i + 1) (skipn i l)) at 1. f_equal.
    rewrite skipn_skipn. f_equal. lia. }
  rewrite EL at 2. rewrite !run_app.
  assert (OL : ordered l) by (apply ord_l; auto).
  rewrite (run_noop calcT vm (firstn i l)).
  2:{ intros s Hs. left. apply In_nth_error in Hs as [k Hk]. 
      assert (k < i)%nat. { assert (k < length (firstn i l))%nat by (apply nth_error_Some; congruence). rewrite firstn_length in *. lia. }
      assert (Hk' : nth_error l k = Some s). { rewrite EL, nth_error_app1 by (rewrite firstn_length in *; assert (i < length l)%nat by (apply nth_error_Some; congruence); lia). auto. }
      assert (exists s1, nth_error l (S k) = Some s1) as [s1 H1]. { assert (i < length l)%nat by (apply nth_error_Some; congruence). destruct (nth_error l (S k)) eqn:Q; eauto. apply nth_error_None in Q. lia. }
      destruct PT as [_ Ch]. pose proof (chain_nth l lo hi k s s1 Ch Hk' H1) as M.
      destruct (chain_mono l lo hi (S k) i s1 si Ch OL ltac:(lia) H1 Hi) as [M1 _]. apply Rleb_true in M1. lra. }
  symmetry. apply run_noop.
  intros s Hs. right. apply In_nth_error in Hs as [k Hk]. rewrite nth_skipn in Hk.
  assert (exists s1, nth_error l (j + k) = Some s1) as [s1 H1]. { assert (j + 1 + k < length l)%nat by (apply nth_error_Some; congruence). destruct (nth_error l (j + k)) eqn:Q; eauto. apply nth_error_None in Q. lia. }
  destruct PT as [_ Ch]. replace (j + 1 + k)%nat with (S (j + k)) in Hk by lia. pose proof (chain_nth l lo hi (j + k) s1 s Ch H1 Hk) as M.
  destruct (chain_mono l lo hi j (j + k) sj s1 Ch OL ltac:(lia) Hj H1) as [_ M1]. apply Rleb_true in M1. lra.
Qed.
Lemma path_run_down i j si sj E a b u st : (forall s, In s l -> smin s <= smax s) ->
  nth_error l i = Some si -> contains si a = true -> nth_error l j = Some sj -> contains sj b = true -> (j <= i)%nat -> b <= a ->
  run (path l i j) E a b u st = run (rev l) E a b u st.
Proof.
  intros O Hi Ca Hj Cb L Hab. apply contains_R in Ca, Cb.
  assert (EP : path l i j = rev (firstn (i - j + 1) (skipn j l))).
  { unfold path. destruct (Nat.leb_spec i j); [|reflexivity]. assert (i = j) by lia. subst j. rewrite (skipn_nth _ _ _ Hi).
    replace (i - i + 1)%nat with 1%nat by lia. reflexivity. }
  rewrite EP.
  assert (EL : l = firstn j l ++ firstn (i - j + 1) (skipn j l) ++ skipn (i + 1) l).
  { rewrite <- (firstn_skipn j l) at 1. f_equal. rewrite <- (firstn_skipn (i - j + 1) (skipn j l)) at 1. f_equal.
    rewrite skipn_skipn. f_equal. lia. }
  rewrite EL at 2. rewrite !rev_app_distr, !run_app.
  assert (OL : ordered l) by (apply ord_l; auto).
  rewrite (run_noop calcT vm (rev (skipn (i + 1) l))).
  2:{ intros s Hs. apply in_rev in Hs. right. apply In_nth_error in Hs as [k Hk]. rewrite nth_skipn in Hk.
  assert (exists s1, nth_error l (i + k) = Some s1) as [s1 H1]. { assert (i + 1 + k < length l)%nat by (apply nth_error_Some; congruence). destruct (nth_error l (i + k)) eqn:Q; eauto. apply nth_error_None in Q. lia. }
  destruct PT as [_ Ch]. replace (i + 1 + k)%nat with (S (i + k)) in Hk by lia. pose proof (chain_nth l lo hi (i + k) s1 s Ch H1 Hk) as M.
  destruct (chain_mono l lo hi i (i + k) si s1 Ch OL ltac:(lia) Hi H1) as [_ M1]. apply Rleb_true in M1. lra. }
  symmetry. apply run_noop.
  intros s Hs. apply in_rev in Hs. left. apply In_nth_error in Hs as [k Hk]. 
      assert (k < j)%nat. { assert (k < length (firstn j l))%nat by (apply nth_error_Some; congruence). rewrite firstn_length in *. lia. }
      assert (Hk' : nth_error l k = Some s). { rewrite EL, nth_error_app1 by (rewrite firstn_length in *; assert (j < length l)%nat by (apply nth_error_Some; congruence); lia). auto. }
      assert (exists s1, nth_error l (S k) = Some s1) as [s1 H1]. { assert (j < length l)%nat by (apply nth_error_Some; congruence). destruct (nth_error l (S k)) eqn:Q; eauto. apply nth_error_None in Q. lia. }
      destruct PT as [_ Ch]. pose proof (chain_nth l lo hi k s s1 Ch Hk' H1) as M.
      destruct (chain_mono l lo hi (S k) j s1 sj Ch OL ltac:(lia) H1 Hj) as [M1 _]. apply Rleb_true in M1. lra.
Qed.

End Path.

Lemma chain_right : forall (l : list sec) lo hi x, chain lo hi l -> lo <= x < hi -> exists s, In s l /\ smin s <= x < smax s.
Proof.
  induction l as [|s l IH]; intros lo hi x C Hx; cbn in C; [lra|]. destruct C as [E C].
  destruct (Rlt_le_dec x (smax s)) as [L|L]; [exists s; split; [left; reflexivity|lra]|].
  destruct (IH (smax s) hi x C ltac:(lra)) as (t & Ht & Hx'). exists t. split; [right; exact Ht|exact Hx'].
Qed.
Lemma chain_left : forall (l : list sec) lo hi x, chain lo hi l -> lo < x <= hi -> exists s, In s l /\ smin s < x <= smax s.
Proof.
  induction l as [|s l IH]; intros lo hi x C Hx; cbn in C; [lra|]. destruct C as [E C].
  destruct (Rle_lt_dec x (smax s)) as [L|L]; [exists s; split; [left; reflexivity|lra]|].
  destruct (IH (smax s) hi x C ltac:(lra)) as (t & Ht & Hx'). exists t. split; [right; exact Ht|exact Hx'].
Qed.

Lemma start_range_up : forall vm s E a b y, a <= b -> 0 <= theta_start vm s E a b y < PI.
Proof.
  intros vm s E a b y Hab. pose proof PIpos. unfold theta_start. rewrite theta0_val. pose proof (atan_safe_range (scaling vm E * y0 y) (y1 y)) as B.
  set (t := atan_safe _ _) in *. rewrite (proj2 (Rltb_false b a)) by lra. cbn [andb]. rewrite orb_false_r.
  destruct (Rltb t 0) eqn:L; [apply Rltb_true in L|apply Rltb_false in L]; lra.
Qed.
Lemma start_range_down : forall vm s E a b y, b < a -> 0 < theta_start vm s E a b y <= PI.
Proof.
  intros vm s E a b y Hab. pose proof PIpos. unfold theta_start. rewrite theta0_val. pose proof (atan_safe_range (scaling vm E * y0 y) (y1 y)) as B.
  set (t := atan_safe _ _) in *. rewrite (proj2 (Rltb_true b a)) by lra. cbn [andb].
  destruct (Rltb t 0) eqn:L; [apply Rltb_true in L; cbn; lra|apply Rltb_false in L; cbn]. destruct (Reqb t 0) eqn:K; [apply Reqb_true in K; lra|apply Reqb_false in K].
  assert (0 < t) by (destruct L as [|L]; [assumption|congruence]). lra.
Qed.

Section Main.
Variable calcT : sec -> R -> R -> bool -> Tm.
Variable vm : R.
Variables (l : list sec) (lo hi : R).
Hypothesis PT : partition lo hi l.
Variable V : R -> R.
Variable E : R.
Variables z z' : R -> R.
Hypothesis Sol : solution V E lo hi l z z'.
Hypothesis Nz : nontrivial z z' lo hi.
Hypothesis Ho : forall s, In s l -> smin s < smax s.

Lemma order_in : lo <= hi /\ forall s, In s l -> lo <= smin s /\ smax s <= hi.
Proof. apply (chain_order l lo hi); [apply PT|]. intros s Hs. left. apply Ho, Hs. Qed.
Lemma sol_sector : forall s, In s l -> sol_on V E (smin s) (smax s) z z'.
Proof.
  intros s Hs. destruct order_in as [_ O]. destruct (O s Hs) as [O1 O2]. destruct Sol as [S1 S2]. split.
  - intros x Hx. apply S1. lra.
  - intros x Hx. apply (S2 s x Hs Hx).
Qed.
Lemma global_up : forall sc phi, 0 < sc -> ang sc z z' lo hi phi -> up_right phi lo hi /\ up_left phi lo hi.
Proof.
  intros sc phi Hs A. destruct order_in as [_ O]. split; intros k x Hx Ek.
  - destruct (chain_right l lo hi x (proj2 PT) Hx) as (s & Hin & Hxs). destruct (O s Hin) as [O1 O2].
    destruct (ang_up_right V E sc z z' (smin s) (smax s) phi Hs (sol_sector s Hin)) with (k := k) (x := x) as (d & Hd & H); [intros t Ht; apply Nz; lra|apply (lift_sub _ _ lo hi); [exact A|lra|lra]|exact Hxs|exact Ek|].
    exists (Rmin d (smax s - x)). split; [apply Rmin_glb_lt; lra|]. intros y Hy _. pose proof (Rmin_l d (smax s - x)). pose proof (Rmin_r d (smax s - x)). apply H; lra.
  - destruct (chain_left l lo hi x (proj2 PT) Hx) as (s & Hin & Hxs). destruct (O s Hin) as [O1 O2].
    destruct (ang_up_left V E sc z z' (smin s) (smax s) phi Hs (sol_sector s Hin)) with (k := k) (x := x) as (d & Hd & H); [intros t Ht; apply Nz; lra|apply (lift_sub _ _ lo hi); [exact A|lra|lra]|exact Hxs|exact Ek|].
    exists (Rmin d (x - smin s)). split; [apply Rmin_glb_lt; lra|]. intros y Hy _. pose proof (Rmin_l d (x - smin s)). pose proof (Rmin_r d (x - smin s)). apply H; lra.
Qed.
Lemma global_count : forall sc phi p q, 0 < sc -> ang sc z z' lo hi phi -> lo <= p -> p <= q -> q <= hi ->
  exists zs, lists_zeros z (fun x => p < x <= q) zs /\ flr (phi q) = (flr (phi p) + Z.of_nat (length zs))%Z.
Proof.
  intros sc phi p q Hs A Hp Hpq Hq. destruct (global_up sc phi Hs A) as [U1 U2].
  destruct (level_count phi p q Hpq) as (zs & H1 & H2 & H3); [apply A| | |].
  - intros k x Hx Ek. destruct (U1 k x ltac:(lra) Ek) as (d & Hd & H). exists d. split; [exact Hd|]. intros y Hy Hyq. apply H; lra.
  - intros k x Hx Ek. destruct (U2 k x ltac:(lra) Ek) as (d & Hd & H). exists d. split; [exact Hd|]. intros y Hy Hyq. apply H; lra.
  - exists zs. split; [|exact H3]. split; [exact H1|]. intro x. rewrite H2. split; intros [Hx Z]; (split; [exact Hx|]); apply (ang_zero sc z z' lo hi phi Hs Nz A x ltac:(lra)); exact Z.
Qed.

Theorem propagate_exact : forall u a b y, (forall s, In s l -> counting_ok calcT V E u a b s) -> lo <= a <= hi -> lo <= b <= hi -> y0 y = z a -> y1 y = z' a ->
  exists Z th phi, propagate calcT vm l lo hi E y a b u = Ret (Z, th) /\ y0 Z = z b /\ y1 Z = z' b /\ ang (scaling vm E) z z' lo hi phi /\
    (a <= b -> 0 <= phi a < PI) /\ (b < a -> 0 < phi a <= PI) /\ th = phi b.
Proof.
  intros u a b y H Ha Hb Y0 Y1. destruct order_in as [Hlh O]. pose proof (scaling_pos vm E) as HS.
  destruct (propagate_path calcT vm l lo hi PT ltac:(intros s Hs; left; apply Ho, Hs) a b Ha Hb) as (i & j & si & sj & Hi & Ci & Hj & Cj & U & D & F).
  set (th0 := theta_start vm si E a b y).
  assert (is_angle (scaling vm E) th0 y) as A0 by apply start_angle.
  (* a continuous angle with phi a = th0 *)
  destruct (ang_exists (scaling vm E) z z' lo hi (atan_safe (scaling vm E * z lo) (z' lo)) Hlh HS) as (phi0 & Aphi0 & _); [apply Sol|exact Nz|apply atan_safe_angle|].
  assert (multiple_of_pi (th0 - phi0 a)) as [k Ek].
  { apply (angles_pi (scaling vm E * z a) (z' a)); [apply (scaled_nz _ z z' lo hi HS Nz a Ha)| |apply Aphi0, Ha]. unfold is_angle in A0. rewrite Y0, Y1 in A0. exact A0. }
  set (phi := fun x => phi0 x + IZR k * PI).
  assert (ang (scaling vm E) z z' lo hi phi) as Aphi by (apply lift_shift, Aphi0).
  assert (phi a = th0) as Pa by (unfold phi; lra).
  set (ss := if Rleb a b then l else rev l).
  assert (run calcT vm (path l i j) E a b u (y, th0) = run calcT vm ss E a b u (y, th0)) as Ep.
  { unfold ss. destruct (Rleb a b) eqn:L; [apply Rleb_true in L|apply Rleb_false in L].
    - apply (path_run_up calcT vm l lo hi PT i j si sj); auto. intros s Hs; left; apply Ho, Hs.
    - apply (path_run_down calcT vm l lo hi PT i j si sj); auto; [|apply D; lra|lra]. intros s Hs; left; apply Ho, Hs. }
  assert (forall s, In s l -> fine calcT V E z z' lo hi u s a b) as Hfine.
  { intros s Hs. destruct (H s Hs) as (H1 & H2 & H3 & H4 & H5 & H6 & H7). destruct (O s Hs) as [O1 O2].
    unfold fine. pose proof (sol_sector s Hs). tauto. }
  assert (at_ z z' (fst (run calcT vm ss E a b u (y, th0))) b /\ snd (run calcT vm ss E a b u (y, th0)) = th0 + (phi b - phi a)) as [R1 R2].
  { unfold ss. destruct (Rleb a b) eqn:L; [apply Rleb_true in L|apply Rleb_false in L].
    - apply (run_linked calcT vm V E z z' phi lo hi Nz Aphi u a b (fun s => qq a b (smin s)) (fun s => qq a b (smax s)) l a b (y, th0)).
      + pose proof (linked_up a b l lo hi (proj2 PT)) as K. assert (qq a b lo = a) as Q1 by mm. assert (qq a b hi = b) as Q2 by mm. rewrite Q1, Q2 in K. exact K.
      + intros s Hs. split; [apply Hfine, Hs|]. split; intro Hn; [apply qq_noop; [left; apply Ho, Hs|exact Hn]|apply qq_up; [left; apply Ho, Hs|exact L|exact Hn]].
      + split; assumption.
    - apply (run_linked calcT vm V E z z' phi lo hi Nz Aphi u a b (fun s => qq a b (smax s)) (fun s => qq a b (smin s)) (rev l) a b (y, th0)).
      + pose proof (linked_down a b l lo hi (proj2 PT)) as K. assert (qq a b hi = a) as Q1 by mm. assert (qq a b lo = b) as Q2 by mm. rewrite Q1, Q2 in K. exact K.
      + intros s Hs. apply in_rev in Hs. split; [apply Hfine, Hs|]. split; intro Hn; [symmetry; apply qq_noop; [left; apply Ho, Hs|exact Hn]|].
        apply qq_down; [left; apply Ho, Hs|lra|exact Hn].
      + split; assumption. }
  exists (fst (run calcT vm ss E a b u (y, th0))), (snd (run calcT vm ss E a b u (y, th0))), phi.
  split; [rewrite F; fold th0; rewrite Ep; f_equal; apply surjective_pairing|].
  split; [apply R1|]. split; [apply R1|]. split; [exact Aphi|]. rewrite Pa. split; [apply start_range_up|]. split; [apply start_range_down|].
  rewrite R2, Pa. ring.
Qed.
End Main.
