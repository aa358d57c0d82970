(** Sturm comparison of turns, turns of the exponential and of sine waves, behaviour of turns towards low and high energies. *)
From Coq Require Import String Reals Ranalysis5 ZArith Lra Lia Bool.
From Coquelicot Require Import Coquelicot.
From Coq Require Import List.
From Verif Require Import Base M_Sectors S_Sectors P_Lookup M_Core S_Core P_Core P_Core2 P_Prufer S_Accuracy S_Zeros P_Lift P_Lift2 P_Cross P_Global2 P_Global3 P_Global5 P_Step P_Step2 P_Count P_Count2 P_Sturm P_Sturm2 P_Hill P_Hill2.
Import ListNotations.
Open Scope R_scope.

Section Compare.
Variables (l : list sec) (lo hi : R).
Hypothesis PT : partition lo hi l.
Hypothesis Ho : forall s, In s l -> smin s < smax s.
Hypothesis Hlh : lo < hi.

Lemma turned_compare : forall V1 V2 E1 E2 a b1 b2, (forall t x, In t l -> smin t < x < smax t -> V2 x - E2 < V1 x - E1) ->
  turned V1 l lo hi E1 a b1 -> turned V2 l lo hi E2 a b2 -> b1 < b2.
Proof using PT Ho Hlh.
  intros V1 V2 E1 E2 a b b' HE (z & z' & f & S & N & A & F1 & F2) (w & w' & g & S' & N' & A' & G1 & G2). subst.
  pose proof (sturm2 l lo hi PT V1 V2 E1 E2 1 HE ltac:(lra) z z' w w' S S' N N' Ho f g A A' 0 lo hi ltac:(lra) Hlh ltac:(lra)) as Q. rewrite Rmult_0_l in Q. lra.
Qed.
Lemma turned_exp : turned (fun _ => 1) l lo hi 0 (PI / 4) (PI / 4).
Proof using Hlh.
  assert (forall x, is_derive (fun x => exp (x - lo)) x (exp (x - lo))) as D by (intro x; auto_derive; [exact I|unfold Rminus; ring]).
  exists (fun x => exp (x - lo)), (fun x => exp (x - lo)), (fun _ => PI / 4). split; [|split; [|split; [|split; reflexivity]]].
  - split; [intros x _; split; apply (ex_derive_continuous (fun x => exp (x - lo))); eexists; apply D|].
    intros s x _ _. split; [apply D|]. replace ((1 - 0) * exp (x - lo)) with (exp (x - lo)) by ring. apply D.
  - intros x _. left. pose proof (exp_pos (x - lo)). lra.
  - split; [intro x; apply continuous_const|]. intros x _. rewrite cos_PI4, sin_PI4. ring.
Qed.
(** a wave with k half periods turns every direction by k half turns *)
Lemma sine_solution : forall w (a b : R), 0 < w -> solution (fun _ => 0) (w * w) lo hi l (fun x => a * cos (w * (x - lo)) + b * (sin (w * (x - lo)) / w)) (fun x => - a * w * sin (w * (x - lo)) + b * cos (w * (x - lo))).
Proof using.
  intros w a b Hw.
  assert (forall x, is_derive (fun x => a * cos (w * (x - lo)) + b * (sin (w * (x - lo)) / w)) x (- a * w * sin (w * (x - lo)) + b * cos (w * (x - lo)))) as D1 by (intro x; auto_derive; [exact I|unfold Rminus; field; lra]).
  assert (forall x, is_derive (fun x => - a * w * sin (w * (x - lo)) + b * cos (w * (x - lo))) x ((0 - w * w) * (a * cos (w * (x - lo)) + b * (sin (w * (x - lo)) / w)))) as D2 by (intro x; auto_derive; [exact I|unfold Rminus; field; lra]).
  split; [|intros s x _ _; split; [apply D1|apply D2]].
  intros x _. split; [apply (ex_derive_continuous (fun x => a * cos (w * (x - lo)) + b * (sin (w * (x - lo)) / w))); eexists; apply D1|apply (ex_derive_continuous (fun x => - a * w * sin (w * (x - lo)) + b * cos (w * (x - lo)))); eexists; apply D2].
Qed.
Lemma turned_sine : forall k a, (1 <= k)%nat -> let w := INR k * PI / (hi - lo) in turned (fun _ => 0) l lo hi (w * w) a (a + INR k * PI).
Proof using PT Ho Hlh.
  intros k a Hk w. pose proof PIpos as HP. assert (1 <= INR k) as Hk1 by (apply (le_INR 1); lia).
  assert (0 < w) as Hw. { unfold w. apply Rdiv_lt_0_compat; [|lra]. apply Rmult_lt_0_compat; lra. }
  assert (forall (s : sec) (x : R), In s l -> smin s < x < smax s -> Rabs ((fun _ => 0) x) <= 0) as B by (intros s x _ _; cbv beta; rewrite Rabs_R0; lra).
  assert (w * (hi - lo) = INR k * PI) as Ew by (unfold w; field; lra).
  (* from angle 0 *)
  assert (turned (fun _ => 0) l lo hi (w * w) 0 (0 + INR k * PI)) as T0.
  { pose (z := fun x => 0 * cos (w * (x - lo)) + 1 * (sin (w * (x - lo)) / w)). pose (z' := fun x => - 0 * w * sin (w * (x - lo)) + 1 * cos (w * (x - lo))).
    assert (solution (fun _ => 0) (w * w) lo hi l z z') as S by exact (sine_solution w 0 1 Hw).
    assert (forall x, z x = sin (w * (x - lo)) / w) as Ez by (intro x; unfold z; ring). assert (forall x, z' x = cos (w * (x - lo))) as Ez' by (intro x; unfold z'; ring).
    assert (nontrivial z z' lo hi) as N.
    { intros x Hx. rewrite Ez, Ez'. pose proof (sin2_cos2 (w * (x - lo))) as Q. unfold Rsqr in Q. destruct (Req_dec (cos (w * (x - lo))) 0) as [Z|Z]; [left|right; exact Z].
      intro Z2. assert (sin (w * (x - lo)) = 0) as Z3 by (apply (Rmult_eq_reg_r (/ w)); [rewrite Rmult_0_l; exact Z2|apply Rinv_neq_0_compat; lra]). rewrite Z, Z3 in Q. lra. }
    destruct (ang_exists 1 z z' lo hi 0 ltac:(lra) ltac:(lra) (proj1 S) N) as (f & A & F).
    { rewrite Ez, Ez', Rminus_eq_0, Rmult_0_r, sin_0, cos_0. field. lra. }
    assert (multiple_of_pi (f hi - f lo)) as [j Ej].
    { apply (angles_pi (z lo) (z' lo)); [apply N; lra| |pose proof (proj2 A lo ltac:(lra)) as Q; cbv beta in Q; lra].
      pose proof (proj2 A hi ltac:(lra)) as Q. cbv beta in Q. rewrite Ez, Ez', Ew in Q. rewrite Ez, Ez', Rminus_eq_0, Rmult_0_r, sin_0, cos_0.
      assert (sin (INR k * PI) = 0) as Sk by (apply sin_eq_0_1; exists (Z.of_nat k); rewrite <- INR_IZR_INZ; reflexivity). rewrite Sk in Q.
      assert (cos (INR k * PI) <> 0) as Ck. { intro Z. pose proof (sin2_cos2 (INR k * PI)) as P. rewrite Sk, Z in P. unfold Rsqr in P. lra. }
      assert (cos (INR k * PI) * sin (f hi) = cos (INR k * PI) * 0) as Q2 by (unfold Rdiv in Q; lra). apply Rmult_eq_reg_l in Q2; [|exact Ck]. rewrite Q2. unfold Rdiv. ring. }
    assert (lists_zeros z (fun x => lo < x <= hi) (map (fun i => lo + INR i * (hi - lo) / INR k) (seq 1 k))) as LZ.
    { split.
      - apply FinFun.Injective_map_NoDup; [|apply seq_NoDup]. intros i i' Hij. apply INR_eq. apply Rplus_eq_reg_l in Hij. unfold Rdiv in Hij. rewrite !Rmult_assoc in Hij.
        apply (Rmult_eq_reg_r ((hi - lo) * / INR k)); [exact Hij|]. apply Rmult_integral_contrapositive_currified; [lra|apply Rinv_neq_0_compat; lra].
      - intro x. rewrite in_map_iff. split.
        + intros (i & <- & Hi). apply in_seq in Hi. assert (1 <= INR i) by (apply (le_INR 1); lia). assert (INR i <= INR k) by (apply le_INR; lia).
          assert (0 < INR i * (hi - lo) / INR k) by (apply Rdiv_lt_0_compat; [apply Rmult_lt_0_compat; lra|lra]).
          assert (INR i * (hi - lo) / INR k <= hi - lo) by (apply (Rmult_le_reg_r (INR k)); [lra|]; unfold Rdiv; rewrite Rmult_assoc, Rinv_l by lra; rewrite Rmult_1_r; rewrite (Rmult_comm (hi - lo)); apply Rmult_le_compat_r; lra).
          split; [lra|]. rewrite Ez. replace (w * (lo + INR i * (hi - lo) / INR k - lo)) with (IZR (Z.of_nat i) * PI) by (rewrite <- INR_IZR_INZ; unfold w; field; lra).
          rewrite sin_eq_0_1; [unfold Rdiv; ring|]. exists (Z.of_nat i). reflexivity.
        + intros [Hx Z]. rewrite Ez in Z. assert (sin (w * (x - lo)) = 0) as S0. { apply (Rmult_eq_reg_r (/ w)); [rewrite Rmult_0_l; exact Z|apply Rinv_neq_0_compat; lra]. }
          apply sin_eq_0_0 in S0 as [i Ei]. assert (INR k * (x - lo) = IZR i * (hi - lo)) as E2.
          { apply (Rmult_eq_reg_r (PI / (hi - lo))); [|apply Rgt_not_eq; apply Rdiv_lt_0_compat; lra]. transitivity (w * (x - lo)); [unfold w; field; lra|]. rewrite Ei. field. lra. }
          assert (0 < INR k * (x - lo)) as K0 by (apply Rmult_lt_0_compat; lra). assert (INR k * (x - lo) <= INR k * (hi - lo)) as K1 by (apply Rmult_le_compat_l; lra).
          rewrite E2 in K0, K1. apply Rmult_le_reg_r in K1; [|lra]. assert (0 * (hi - lo) < IZR i * (hi - lo)) as K2 by lra. apply Rmult_lt_reg_r in K2; [|lra]. rewrite INR_IZR_INZ in K1. apply lt_IZR in K2. apply le_IZR in K1.
          exists (Z.to_nat i). split; [|apply in_seq; lia]. rewrite INR_IZR_INZ, Z2Nat.id by lia. rewrite <- E2. field. lra. }
    pose proof (turned_count (fun _ => 0) l lo hi PT Ho Hlh (w * w) z z' f S N A j _ ltac:(lra) LZ) as Hj. rewrite map_length, seq_length in Hj. subst j. rewrite <- INR_IZR_INZ in Ej.
    exists z, z', f. split; [exact S|]. split; [exact N|]. split; [exact A|]. split; [exact F|]. lra. }
  (* every direction: all solutions return to themselves up to sign *)
  destruct (psign_shift (Z.of_nat k) 0) as [_ C0]. rewrite Rplus_0_l, cos_0, Rmult_1_r in C0. rewrite <- INR_IZR_INZ in C0.
  assert (sin (INR k * PI) = 0) as Sk by (apply sin_eq_0_1; exists (Z.of_nat k); rewrite <- INR_IZR_INZ; reflexivity).
  pose (z := fun x => sin a * cos (w * (x - lo)) + cos a * (sin (w * (x - lo)) / w)). pose (z' := fun x => - sin a * w * sin (w * (x - lo)) + cos a * cos (w * (x - lo))).
  assert (solution (fun _ => 0) (w * w) lo hi l z z') as S by exact (sine_solution w (sin a) (cos a) Hw).
  assert (z lo = sin a) as Z0 by (unfold z; rewrite Rminus_eq_0, Rmult_0_r, sin_0, cos_0; unfold Rdiv; ring). assert (z' lo = cos a) as Z0' by (unfold z'; rewrite Rminus_eq_0, Rmult_0_r, sin_0, cos_0; ring).
  assert (z hi = psign (Z.of_nat k) * z lo) as Z1 by (rewrite Z0; unfold z; rewrite Ew, Sk, C0; unfold Rdiv; ring). assert (z' hi = psign (Z.of_nat k) * z' lo) as Z1' by (rewrite Z0'; unfold z'; rewrite Ew, Sk, C0; ring).
  assert (nontrivial z z' lo hi) as N.
  { apply (nontrivial_at (fun _ => 0) l lo hi 0 PT Ho B ltac:(lra) (w * w) z z' lo S ltac:(lra)). rewrite Z0, Z0'. pose proof (sin2_cos2 a) as Q. unfold Rsqr in Q. destruct (Req_dec (sin a) 0) as [Z|Z]; [right; intro Z2; rewrite Z, Z2 in Q; lra|left; exact Z]. }
  destruct (ang_exists 1 z z' lo hi a ltac:(lra) ltac:(lra) (proj1 S) N) as (f & A & F); [rewrite Z0, Z0'; ring|].
  assert (turned (fun _ => 0) l lo hi (w * w) a (f hi)) as T by (exists z, z', f; auto).
  assert (multiple_of_pi (f hi - f lo)) as [j Ej].
  { apply (angles_pi (z lo) (z' lo)); [apply N; lra| |pose proof (proj2 A lo ltac:(lra)) as Q; cbv beta in Q; lra].
    pose proof (proj2 A hi ltac:(lra)) as Q. cbv beta in Q. rewrite Z1, Z1' in Q. pose proof (psign_sq (Z.of_nat k)) as P.
    assert (psign (Z.of_nat k) <> 0) by (intro Z; rewrite Z in P; lra). apply (Rmult_eq_reg_l (psign (Z.of_nat k))); [lra|assumption]. }
  pose proof (turned_close (fun _ => 0) l lo hi 0 PT Ho B ltac:(lra) Hlh (w * w) _ _ _ _ T T0) as C1. pose proof (turned_close (fun _ => 0) l lo hi 0 PT Ho B ltac:(lra) Hlh (w * w) _ _ _ _ T0 T) as C2.
  rewrite F in Ej. assert (f hi = a + IZR j * PI) as Ef by lra. rewrite Ef in C1, C2.
  assert (j = Z.of_nat k) as ->; [|rewrite Ef, <- INR_IZR_INZ in T; exact T].
  rewrite (INR_IZR_INZ k) in C1, C2. assert (IZR (j - Z.of_nat k) * PI < 1 * PI) as L1 by (rewrite minus_IZR; lra). assert (IZR (Z.of_nat k - j) * PI < 1 * PI) as L2 by (rewrite minus_IZR; lra).
  apply Rmult_lt_reg_r in L1; [|lra]. apply Rmult_lt_reg_r in L2; [|lra]. apply lt_IZR in L1. apply lt_IZR in L2. lia.
Qed.

Variables (V : R -> R) (M : R).
Hypothesis HM : forall s x, In s l -> smin s < x < smax s -> Rabs (V x) <= M.
Hypothesis HM0 : 0 <= M.
(** far below the potential a solution starting with slope 1 turns back *)
Lemma turned_below : forall E b, E < - M - 1 -> turned V l lo hi E (PI / 4) b -> b < PI / 4.
Proof using PT Ho Hlh HM.
  intros E b HE T. apply (turned_compare V (fun _ => 1) E 0 (PI / 4) b (PI / 4)); [|exact T|apply turned_exp].
  intros t x Ht Hx. pose proof (HM t x Ht Hx) as Q. apply Rabs_le_between in Q. lra.
Qed.
(** energies above and below those of the k-th wave *)
Lemma turned_more : forall k a b E, (1 <= k)%nat -> let w := INR k * PI / (hi - lo) in (forall t x, In t l -> smin t < x < smax t -> V x + w * w < E) -> turned V l lo hi E a b -> INR k * PI < b - a.
Proof using PT Ho Hlh.
  intros k a b E Hk w HE T. pose proof (turned_sine k a Hk) as Ts. cbv zeta in Ts. fold w in Ts.
  pose proof (turned_compare (fun _ => 0) V (w * w) E a _ _ ltac:(intros t x Ht Hx; specialize (HE t x Ht Hx); lra) Ts T). lra.
Qed.
Lemma turned_less : forall k a b E, (1 <= k)%nat -> let w := INR k * PI / (hi - lo) in (forall t x, In t l -> smin t < x < smax t -> E < V x + w * w) -> turned V l lo hi E a b -> b - a < INR k * PI.
Proof using PT Ho Hlh.
  intros k a b E Hk w HE T. pose proof (turned_sine k a Hk) as Ts. cbv zeta in Ts. fold w in Ts.
  pose proof (turned_compare V (fun _ => 0) E (w * w) a _ _ ltac:(intros t x Ht Hx; specialize (HE t x Ht Hx); lra) T Ts). lra.
Qed.
End Compare.
