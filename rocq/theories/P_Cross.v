(** Crossings of multiples of pi by a continuous angle; counting of zeros. *)
From Coq Require Import Reals ZArith Lra Lia.
From Coquelicot Require Import Coquelicot.
From Coq Require Import List FinFun.
From Verif Require Import Base M_Sectors M_Core S_Core P_Prufer S_Formulas P_Terms2 S_Zeros P_Lift P_Lift2.
Import ListNotations.
Open Scope R_scope.

Lemma near : forall (f : R -> R) x e, continuous f x -> 0 < e -> exists d, 0 < d /\ forall y, Rabs (y - x) < d -> Rabs (f y - f x) < e.
Proof.
  intros f x e C He. destruct (C (fun z => Rabs (z - f x) < e)) as [d Hd].
  - exists (mkposreal e He). intros z Hz. exact Hz.
  - exists d. split; [apply cond_pos|]. intros y Hy. apply Hd. exact Hy.
Qed.
Lemma near_pos : forall (f : R -> R) x l, continuous f x -> l < f x -> exists d, 0 < d /\ forall y, Rabs (y - x) < d -> l < f y.
Proof.
  intros f x l C H. destruct (near f x (f x - l) C ltac:(lra)) as (d & Hd & Hn). exists d. split; [exact Hd|]. intros y Hy.
  specialize (Hn y Hy). apply Rabs_def2 in Hn. lra.
Qed.
Lemma near_neg : forall (f : R -> R) x l, continuous f x -> f x < l -> exists d, 0 < d /\ forall y, Rabs (y - x) < d -> f y < l.
Proof.
  intros f x l C H. destruct (near f x (l - f x) C ltac:(lra)) as (d & Hd & Hn). exists d. split; [exact Hd|]. intros y Hy.
  specialize (Hn y Hy). apply Rabs_def2 in Hn. lra.
Qed.

(** ---- polar form *)
Lemma lift_polar : forall (u v : R -> R) (p q : R) (phi : R -> R), (forall x, p <= x <= q -> continuous u x) -> (forall x, p <= x <= q -> continuous v x) ->
  (forall x, p <= x <= q -> u x <> 0 \/ v x <> 0) -> lift u v p q phi ->
  exists c : R -> R, forall x, p <= x <= q -> 0 < c p * c x /\ u x = c x * sin (phi x) /\ v x = c x * cos (phi x).
Proof.
  intros u v p q phi Cu Cv Hn [Cphi A].
  set (c := fun x => u x * sin (phi x) + v x * cos (phi x)). exists c. intros x Hx.
  assert (forall x, p <= x <= q -> u x = c x * sin (phi x) /\ v x = c x * cos (phi x)) as P.
  { intros t Ht. pose proof (A t Ht) as At. pose proof (sin2_cos2 (phi t)) as S. unfold Rsqr in S. unfold c. split.
    - transitivity (u t * (sin (phi t) * sin (phi t)) + (u t * cos (phi t)) * cos (phi t)); [transitivity (u t * (sin (phi t) * sin (phi t) + cos (phi t) * cos (phi t))); [rewrite S; ring|ring]|rewrite At; ring].
    - transitivity (v t * (cos (phi t) * cos (phi t)) + (v t * sin (phi t)) * sin (phi t)); [transitivity (v t * (sin (phi t) * sin (phi t) + cos (phi t) * cos (phi t))); [rewrite S; ring|ring]|rewrite <- At; ring]. }
  assert (forall x, p <= x <= q -> c x <> 0) as N.
  { intros t Ht E. destruct (P t Ht) as [P1 P2]. rewrite E in P1, P2. destruct (Hn t Ht); lra. }
  split; [|apply P, Hx]. assert (p <= q) as Hpq by lra.
  set (g := fun x => c (clamp p q x)).
  assert (forall x, continuous g x) as Cg.
  { apply clamp_comp_continuous; [exact Hpq|]. intros t Ht. unfold c.
    apply (continuous_plus (fun x => u x * sin (phi x)) (fun x => v x * cos (phi x))); [apply (continuous_mult u (fun x => sin (phi x)))|apply (continuous_mult v (fun x => cos (phi x)))]; auto;
    [apply (continuous_comp phi sin)|apply (continuous_comp phi cos)]; auto; [apply continuous_sin|apply continuous_cos]. }
  destruct (Rlt_le_dec 0 (c p * c x)) as [|L]; [assumption|exfalso].
  pose proof (N p ltac:(lra)) as Np. pose proof (N x Hx) as Nx.
  assert (g p = c p) as Gp by (unfold g; rewrite clamp_id; [reflexivity|lra]). assert (g x = c x) as Gx by (unfold g; rewrite clamp_id; [reflexivity|lra]).
  destruct (IVT_gen g p x 0) as (t & Ht & Et).
  - intro t. apply continuity_pt_filterlim, Cg.
  - rewrite Gp, Gx. destruct (Rlt_le_dec 0 (c p)) as [L1|L1].
    + assert (c x < 0) by (destruct (Rlt_le_dec (c x) 0); [assumption|nra]). rewrite Rmin_right, Rmax_left by lra. lra.
    + assert (c p < 0) by lra. assert (0 < c x) by (destruct (Rlt_le_dec 0 (c x)); [assumption|nra]). rewrite Rmin_left, Rmax_right by lra. lra.
  - rewrite Rmin_left, Rmax_right in Ht by lra. unfold g in Et. rewrite clamp_id in Et by lra. apply (N t ltac:(lra) Et).
Qed.

(** ---- upward crossings *)
Definition up_right (f : R -> R) (p q : R) : Prop := forall k x, p <= x < q -> f x = IZR k * PI -> exists d, 0 < d /\ forall y, x < y < x + d -> y <= q -> IZR k * PI < f y.
Definition up_left (f : R -> R) (p q : R) : Prop := forall k x, p < x <= q -> f x = IZR k * PI -> exists d, 0 < d /\ forall y, x - d < y < x -> p <= y -> f y < IZR k * PI.

Lemma level_up : forall (f : R -> R) (p q : R), (forall x, continuous f x) -> up_right f p q -> up_left f p q ->
  forall k x y, p <= x -> x < y -> y <= q -> IZR k * PI <= f x -> IZR k * PI < f y.
Proof.
  intros f p q C UR UL k x y Hx Hxy Hy Hk. set (K := IZR k * PI) in *.
  destruct (Rlt_le_dec K (f y)) as [|L]; [assumption|exfalso].
  assert (exists d, 0 < d /\ forall t, x < t < x + d -> t <= q -> K < f t) as (d0 & Hd0 & Hn0).
  { destruct Hk as [Hk|Hk].
    - destruct (near_pos f x K (C x) Hk) as (d & Hd & Hn). exists d. split; [exact Hd|]. intros t Ht _. apply Hn, Rabs_def1; lra.
    - apply (UR k x); [lra|]. symmetry; exact Hk. }
  set (S := fun t => x <= t <= y /\ forall s, x < s <= t -> K < f s).
  destruct (completeness S) as [s [Hub Hlub]].
  { exists y. intros t [Ht _]. lra. }
  { exists x. split; [lra|]. intros t Ht. lra. }
  assert (S (x + Rmin (d0 / 2) (y - x))) as S0.
  { assert (0 < Rmin (d0 / 2) (y - x)) by (apply Rmin_glb_lt; lra). pose proof (Rmin_l (d0 / 2) (y - x)). pose proof (Rmin_r (d0 / 2) (y - x)).
    split; [lra|]. intros t Ht. apply Hn0; lra. }
  assert (x < s <= y) as Hs.
  { split; [|apply Hlub; intros t [Ht _]; lra]. apply Hub in S0. assert (0 < Rmin (d0 / 2) (y - x)) by (apply Rmin_glb_lt; lra). lra. }
  assert (forall t, x < t < s -> K < f t) as Below.
  { intros t Ht. destruct (Rlt_le_dec K (f t)) as [|Lt]; [assumption|exfalso].
    assert (s <= t); [|lra]. apply Hlub. intros r [Hr Hall]. destruct (Rle_lt_dec r t); [assumption|]. specialize (Hall t ltac:(lra)). lra. }
  destruct (Rtotal_order (f s) K) as [F|[F|F]].
  - destruct (near_neg f s K (C s) F) as (d & Hd & Hn). set (t := s - Rmin (d / 2) ((s - x) / 2)).
    assert (0 < Rmin (d / 2) ((s - x) / 2)) by (apply Rmin_glb_lt; lra). pose proof (Rmin_l (d / 2) ((s - x) / 2)). pose proof (Rmin_r (d / 2) ((s - x) / 2)).
    specialize (Hn t ltac:(apply Rabs_def1; unfold t; lra)). specialize (Below t ltac:(unfold t; lra)). lra.
  - destruct (UL k s ltac:(lra) F) as (d & Hd & Hn). set (t := s - Rmin (d / 2) ((s - x) / 2)).
    assert (0 < Rmin (d / 2) ((s - x) / 2)) by (apply Rmin_glb_lt; lra). pose proof (Rmin_l (d / 2) ((s - x) / 2)). pose proof (Rmin_r (d / 2) ((s - x) / 2)).
    specialize (Hn t ltac:(unfold t; lra) ltac:(unfold t; lra)). specialize (Below t ltac:(unfold t; lra)). fold K in Hn. lra.
  - assert (s < y) as Hsy by (destruct (proj2 Hs) as [|E]; [assumption|rewrite E in F; lra]).
    destruct (near_pos f s K (C s) F) as (d & Hd & Hn).
    assert (S (s + Rmin (d / 2) (y - s))) as S1.
    { assert (0 < Rmin (d / 2) (y - s)) by (apply Rmin_glb_lt; lra). pose proof (Rmin_l (d / 2) (y - s)). pose proof (Rmin_r (d / 2) (y - s)).
      split; [lra|]. intros t Ht. destruct (Rlt_le_dec t s); [apply Below; lra|]. apply Hn, Rabs_def1; lra. }
    apply Hub in S1. assert (0 < Rmin (d / 2) (y - s)) by (apply Rmin_glb_lt; lra). lra.
Qed.

(** ---- counting *)
Definition flr (x : R) : Z := Int_part (x / PI).
Lemma flr_spec : forall x, IZR (flr x) * PI <= x < (IZR (flr x) + 1) * PI.
Proof.
  intro x. pose proof PIpos as HP. unfold flr. destruct (base_Int_part (x / PI)) as [H1 H2].
  assert (x = x / PI * PI) as E by (field; lra). split.
  - rewrite E at 2. apply Rmult_le_compat_r; lra.
  - rewrite E at 1. apply Rmult_lt_compat_r; lra.
Qed.
Lemma flr_unique : forall x k, IZR k * PI <= x < (IZR k + 1) * PI -> flr x = k.
Proof.
  intros x k H. pose proof (flr_spec x) as S. pose proof PIpos as HP.
  assert (IZR k < IZR (flr x) + 1) as A by (apply (Rmult_lt_reg_r PI); lra).
  assert (IZR (flr x) < IZR k + 1) as B by (apply (Rmult_lt_reg_r PI); lra).
  rewrite <- plus_IZR in A, B. apply lt_IZR in A, B. lia.
Qed.
Lemma flr_ge : forall x k, IZR k * PI <= x <-> (k <= flr x)%Z.
Proof.
  intros x k. pose proof (flr_spec x) as S. pose proof PIpos as HP. split; intro H.
  - assert (IZR k < IZR (flr x) + 1) as A by (apply (Rmult_lt_reg_r PI); lra). rewrite <- plus_IZR in A. apply lt_IZR in A. lia.
  - apply IZR_le in H. apply Rle_trans with (IZR (flr x) * PI); [apply Rmult_le_compat_r; lra|lra].
Qed.
Lemma flr_shift : forall x k, flr (x + IZR k * PI) = (flr x + k)%Z.
Proof. intros x k. apply flr_unique. pose proof (flr_spec x). rewrite plus_IZR. lra. Qed.

Lemma level_count : forall (f : R -> R) (p q : R), p <= q -> (forall x, continuous f x) -> up_right f p q -> up_left f p q ->
  exists l, NoDup l /\ (forall x, In x l <-> p < x <= q /\ multiple_of_pi (f x)) /\ flr (f q) = (flr (f p) + Z.of_nat (length l))%Z.
Proof.
  intros f p q Hpq C UR UL. pose proof PIpos as HP. pose proof (level_up f p q C UR UL) as LU.
  assert (flr (f p) <= flr (f q))%Z as Hle.
  { apply flr_ge. destruct Hpq as [L| ->]; [|apply flr_spec]. left. apply (LU _ p q); try lra. apply flr_spec. }
  set (n := Z.to_nat (flr (f q) - flr (f p))).
  set (lev := fun i : nat => IZR (flr (f p) + 1 + Z.of_nat i) * PI).
  assert (forall m, (m <= n)%nat -> exists l, length l = m /\ map f l = map lev (seq 0 m) /\ forall x, In x l -> p < x <= q) as B.
  { induction m; intro Hm; [exists []; repeat split; simpl in *; tauto|].
    destruct (IHm ltac:(lia)) as (l & E1 & E2 & E3).
    assert (f p < lev m <= f q) as Hl.
    { unfold lev. split.
      - destruct (flr_spec (f p)) as [_ H]. apply Rlt_le_trans with ((IZR (flr (f p)) + 1) * PI); [exact H|]. apply Rmult_le_compat_r; [lra|]. rewrite <- plus_IZR. apply IZR_le. lia.
      - apply flr_ge. unfold n in Hm. lia. }
    destruct (IVT_gen f p q (lev m)) as (t & Ht & Et).
    { intro t. apply continuity_pt_filterlim, C. }
    { rewrite Rmin_left, Rmax_right by lra. lra. }
    rewrite Rmin_left, Rmax_right in Ht by lra.
    exists (l ++ [t]). split; [rewrite app_length, E1; simpl; lia|]. split.
    - rewrite map_app, E2, seq_S, map_app. simpl. rewrite Et. reflexivity.
    - intros x Hx. apply in_app_or in Hx. destruct Hx as [Hx|[<-|[]]]; [apply E3, Hx|]. split; [|lra].
      destruct (proj1 Ht) as [|E]; [assumption|]. rewrite <- E in Et. lra. }
  destruct (B n ltac:(lia)) as (l & E1 & E2 & E3). exists l.
  assert (forall x y, p < x <= q -> p < y <= q -> f x = f y -> multiple_of_pi (f x) -> x = y) as Inj.
  { intros x y Hx Hy E [k Ek]. destruct (Rtotal_order x y) as [L|[L|L]]; [|exact L|].
    - pose proof (LU k x y ltac:(lra) L ltac:(lra) ltac:(lra)). lra.
    - pose proof (LU k y x ltac:(lra) L ltac:(lra) ltac:(lra)). lra. }
  split; [|split].
  - apply (NoDup_map_inv f). rewrite E2. apply FinFun.Injective_map_NoDup; [|apply seq_NoDup].
    intros i j Hij. unfold lev in Hij. apply Rmult_eq_reg_r in Hij; [|lra]. apply eq_IZR in Hij. lia.
  - intro x. split.
    + intro Hx. split; [apply E3, Hx|]. apply (in_map f) in Hx. rewrite E2 in Hx. apply in_map_iff in Hx. destruct Hx as (i & Ei & _). rewrite <- Ei. unfold lev. eexists; reflexivity.
    + intros [Hx [k Ek]].
      assert (flr (f p) < k)%Z as K1.
      { destruct (Z_lt_le_dec (flr (f p)) k) as [|L]; [assumption|exfalso]. apply flr_ge in L. pose proof (LU k p x ltac:(lra) ltac:(lra) ltac:(lra) L). lra. }
      assert (k <= flr (f q))%Z as K2.
      { apply flr_ge. destruct (proj2 Hx) as [L|E]; [left; apply (LU k x q); lra|rewrite <- E; lra]. }
      assert (In (f x) (map f l)) as Hin.
      { rewrite E2. apply in_map_iff. exists (Z.to_nat (k - flr (f p) - 1)). split.
        - unfold lev. rewrite Ek. f_equal. f_equal. lia.
        - apply in_seq. unfold n. lia. }
      apply in_map_iff in Hin. destruct Hin as (y & Ey & Hy). rewrite <- (Inj y x (E3 y Hy) Hx Ey); [exact Hy|]. rewrite Ey. exists k. exact Ek.
  - rewrite E1. unfold n. lia.
Qed.
