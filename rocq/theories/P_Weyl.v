(** Comparison of eigenvalues of different potentials: eigenvalues as turns of the angle. *)
From Coq Require Import String Reals ZArith Lra Lia Bool.
From Coquelicot Require Import Coquelicot.
From Coq Require Import List.
From Verif Require Import Base M_Search M_Sectors S_Sectors P_Lookup M_Core S_Core P_Core P_Prufer S_Accuracy S_Zeros P_Lift P_Lift2 P_Cross P_Global5 P_Step P_Count P_Count2 P_Sturm P_Sturm2 P_Sturm3 P_Sturm4 T_Zeros P_Hill P_Hill2 P_Hill4 P_Mirror.
Import ListNotations.
Open Scope R_scope.

Section Index.
Variables (l : list sec) (lo hi : R) (V : R -> R).
Hypothesis PT : partition lo hi l.
Hypothesis Ho : forall s, In s l -> smin s < smax s.
Hypothesis Hlh : lo < hi.
Variables (left right : Y) (al be : R).
Hypothesis NL : nonzero left.
Hypothesis NR : nonzero right.
Hypothesis Hal : 0 <= al < PI.
Hypothesis Qal : y0 left * cos al = y1 left * sin al.
Hypothesis Hbe : 0 < be <= PI.
Hypothesis Qbe : y0 right * cos be = y1 right * sin be.

Lemma cross_angle : forall z z' u0 u1 t, (u0 <> 0 \/ u1 <> 0) -> z * u1 = z' * u0 -> u0 * cos t = u1 * sin t -> z * cos t = z' * sin t.
Proof using.
  clear. intros z z' u0 u1 t [H|H] H1 H2; [apply (Rmult_eq_reg_r u0)|apply (Rmult_eq_reg_r u1)]; try exact H.
  - replace (z * cos t * u0) with (z * (u0 * cos t)) by ring. rewrite H2. replace (z' * sin t * u0) with (z' * u0 * sin t) by ring. rewrite <- H1. ring.
  - replace (z * cos t * u1) with (z * u1 * cos t) by ring. rewrite H1. replace (z' * sin t * u1) with (z' * (u1 * sin t)) by ring. rewrite <- H2. ring.
Qed.
Lemma index_turned : forall k E, eigen_index V lo hi l left right k E -> turned V l lo hi E al (be + IZR k * PI).
Proof using PT Ho Hlh NL NR Hal Qal Hbe Qbe.
  intros k E (z & z' & zs & S & N & BL & BR & Z & ->). pose proof PIpos as HP.
  destruct (ang_exists 1 z z' lo hi al ltac:(lra) ltac:(lra)) as (f & A & F); [apply S|exact N| |].
  { rewrite Rmult_1_l. apply (cross_angle _ _ (y0 left) (y1 left)); assumption. }
  assert (exists j, f hi = be + IZR j * PI) as [j Ej].
  { assert (multiple_of_pi (f hi - be)) as [j Ej].
    { apply (angles_pi (z hi) (z' hi)); [apply N; lra|pose proof (proj2 A hi ltac:(lra)) as Q; cbv beta in Q; rewrite Rmult_1_l in Q; exact Q|].
      apply (cross_angle _ _ (y0 right) (y1 right)); assumption. }
    exists j. lra. }
  destruct (global_count l lo hi PT V E z z' S N Ho 1 f lo hi ltac:(lra) A ltac:(lra) ltac:(lra) ltac:(lra)) as (ys & LY & Q).
  rewrite F, (flr_unique al 0) in Q by lra. rewrite Ej, flr_shift in Q.
  replace (IZR (Z.of_nat (length zs))) with (IZR j); [exists z, z', f; auto|]. f_equal.
  pose proof (ang_zero 1 z z' lo hi f ltac:(lra) N A hi ltac:(lra)) as Zh. rewrite Ej in Zh.
  destruct Hbe as [Hb0 [Hb| ->]].
  - rewrite (flr_unique be 0) in Q by lra.
    assert (z hi <> 0) as Nz. { intro C. apply Zh in C. destruct C as [i Ei]. assert (be = IZR (i - j) * PI) as Eb by (rewrite minus_IZR; lra).
      assert (0 < IZR (i - j) < 1) as [C1 C2] by (split; apply (Rmult_lt_reg_r PI); lra). apply lt_IZR in C1. apply (lt_IZR _ 1) in C2. lia. }
    assert (lists_zeros z (fun x => lo < x < hi) ys) as LY'. { apply (same_zeros z (fun x => lo < x <= hi)); [exact LY|]. intros x Zx. split; [|lra]. intros [H1 [H2|H2]]; [lra|subst; contradiction]. }
    rewrite (zeros_length _ _ _ _ Z LY'). lia.
  - rewrite (flr_unique PI 1) in Q by lra. assert (z hi = 0) as Z0 by (apply Zh; exists (1 + j)%Z; rewrite plus_IZR; ring).
    destruct (remove_one z (fun x => lo < x <= hi) (fun x => lo < x < hi) hi ys LY ltac:(lra) Z0) as (ws & L2 & EL).
    { intro x. split; [intro; split; [lra|]; intro; lra|]. intros [? ?]. destruct (Rle_lt_dec hi x); lra. }
    rewrite (zeros_length _ _ _ _ Z L2). lia.
Qed.
Lemma turned_index : forall k E, turned V l lo hi E al (be + IZR k * PI) -> eigen_index V lo hi l left right k E.
Proof using PT Ho Hlh NL NR Hal Qal Hbe Qbe.
  intros k E (z & z' & f & S & N & A & F1 & F2). pose proof PIpos as HP.
  assert (forall u v t, (v * cos t = u * sin t) -> forall p q, (p * cos t = q * sin t) -> v * q = u * p) as G.
  { intros u v t H p q H'. pose proof (sin2_cos2 t) as SC. unfold Rsqr in SC.
    assert ((v * q - u * p) * sin t = 0) as G1. { replace ((v * q - u * p) * sin t) with (v * (q * sin t) - p * (u * sin t)) by ring. rewrite <- H, <- H'. ring. }
    assert ((v * q - u * p) * cos t = 0) as G2. { replace ((v * q - u * p) * cos t) with (q * (v * cos t) - u * (p * cos t)) by ring. rewrite H, H'. ring. }
    assert ((v * q - u * p) * (sin t * sin t + cos t * cos t) = 0) as G3. { rewrite Rmult_plus_distr_l, <- !Rmult_assoc, G1, G2. ring. }
    rewrite SC in G3. lra. }
  assert (z lo * y1 left = z' lo * y0 left) as BL.
  { apply (G _ _ al); [|exact Qal]. pose proof (proj2 A lo ltac:(lra)) as Q. cbv beta in Q. rewrite Rmult_1_l, F1 in Q. exact Q. }
  assert (z hi * y1 right = z' hi * y0 right) as BR.
  { apply (G _ _ (be + IZR k * PI)); [pose proof (proj2 A hi ltac:(lra)) as Q; cbv beta in Q; rewrite Rmult_1_l, F2 in Q; exact Q|].
    destruct (psign_shift k be) as [S1 C1]. rewrite S1, C1. replace (y0 right * (psign k * cos be)) with (psign k * (y0 right * cos be)) by ring. rewrite Qbe. ring. }
  destruct (global_count l lo hi PT V E z z' S N Ho 1 f lo hi ltac:(lra) A ltac:(lra) ltac:(lra) ltac:(lra)) as (ys & LY & _).
  assert (exists zs, lists_zeros z (fun x => lo < x < hi) zs) as [zs LZ].
  { destruct (Req_dec (z hi) 0) as [Z0|Z0].
    - destruct (remove_one z (fun x => lo < x <= hi) (fun x => lo < x < hi) hi ys LY ltac:(lra) Z0) as (ws & L2 & EL); [|exists ws; exact L2].
      intro x. split; [intro; split; [lra|]; intro; lra|]. intros [? ?]. destruct (Rle_lt_dec hi x); lra.
    - exists ys. apply (same_zeros z (fun x => lo < x <= hi)); [exact LY|]. intros x Zx. split; [|lra]. intros [H1 [H2|H2]]; [lra|subst; contradiction]. }
  assert (eigen_index V lo hi l left right (Z.of_nat (length zs)) E) as EI by (exists z, z', zs; repeat (split; [assumption|]); reflexivity).
  replace k with (Z.of_nat (length zs)); [exact EI|].
  (* count zeros along f *)
  destruct (global_count l lo hi PT V E z z' S N Ho 1 f lo hi ltac:(lra) A ltac:(lra) ltac:(lra) ltac:(lra)) as (y2 & L2 & Q2).
  rewrite F1, (flr_unique al 0), F2, flr_shift in Q2 by lra.
  pose proof (ang_zero 1 z z' lo hi f ltac:(lra) N A hi ltac:(lra)) as Zh. rewrite F2 in Zh.
  destruct Hbe as [Hb0 [Hb| Hb]].
  - rewrite (flr_unique be 0) in Q2 by lra.
    assert (z hi <> 0) as Nz. { intro C. apply Zh in C. destruct C as [i Ei]. assert (be = IZR (i - k) * PI) as Eb by (rewrite minus_IZR; lra).
      assert (0 < IZR (i - k) < 1) as [C1 C2] by (split; apply (Rmult_lt_reg_r PI); lra). apply lt_IZR in C1. apply (lt_IZR _ 1) in C2. lia. }
    assert (lists_zeros z (fun x => lo < x < hi) y2) as LY'. { apply (same_zeros z (fun x => lo < x <= hi)); [exact L2|]. intros x Zx. split; [|lra]. intros [H1 [H2|H2]]; [lra|subst; contradiction]. }
    rewrite (zeros_length _ _ _ _ LZ LY'). lia.
  - rewrite Hb in *. rewrite (flr_unique PI 1) in Q2 by lra. assert (z hi = 0) as Z0 by (apply Zh; exists (1 + k)%Z; rewrite plus_IZR; ring).
    destruct (remove_one z (fun x => lo < x <= hi) (fun x => lo < x < hi) hi y2 L2 ltac:(lra) Z0) as (ws & L3 & EL).
    { intro x. split; [intro; split; [lra|]; intro; lra|]. intros [? ?]. destruct (Rle_lt_dec hi x); lra. }
    rewrite (zeros_length _ _ _ _ LZ L3). lia.
Qed.
End Index.
