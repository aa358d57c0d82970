(** Symmetric problems: solutions of the half problem extend to even and odd solutions of the full one, and every eigenfunction of the
    full problem is even or odd. *)
From Coq Require Import Reals ZArith Lra Lia Bool.
From Coquelicot Require Import Coquelicot.
From Coq Require Import List Permutation.
From Verif Require Import Base M_Sectors S_Sectors P_Lookup M_Core S_Core S_Accuracy S_Zeros P_Global5 P_Step P_Sturm2 T_Zeros S_Mirror.
Import ListNotations.
Open Scope R_scope.

Lemma chain_reflected : forall (l : list sec) lo hi, chain lo hi l -> chain (- hi) (- lo) (map reflected (rev l)).
Proof.
  induction l as [|s r IH]; intros lo hi C; cbn in *; [f_equal; symmetry; exact C|].
  destruct C as [<- C]. rewrite map_app. apply chain_app with (mid := - smax s); [apply IH, C|]. cbn. split; reflexivity.
Qed.
Lemma both_partition : forall L l, partition 0 L l -> partition (- L) L (both_halves l).
Proof.
  intros L l [N C]. split.
  - unfold both_halves. intro Q. apply app_eq_nil in Q. apply N, Q.
  - apply chain_app with (mid := 0); [rewrite <- Ropp_0; apply chain_reflected, C|exact C].
Qed.
Lemma in_both : forall l s, In s (both_halves l) -> In s l \/ exists t, In t l /\ s = reflected t.
Proof.
  intros l s H. unfold both_halves in H. apply in_app_or in H. destruct H as [H|H]; [right|left; exact H].
  apply in_map_iff in H. destruct H as (t & <- & H). exists t. split; [apply in_rev, H|reflexivity].
Qed.
Lemma in_both_right : forall l s, In s l -> In s (both_halves l).
Proof. intros. apply in_or_app. right. assumption. Qed.
Lemma in_both_left : forall l s, In s l -> In (reflected s) (both_halves l).
Proof. intros. apply in_or_app. left. apply in_map, in_rev. rewrite rev_involutive. assumption. Qed.

Lemma zeros_length : forall z P a b, lists_zeros z P a -> lists_zeros z P b -> length a = length b.
Proof.
  intros z P a b [Na Ia] [Nb Ib]. apply Permutation_length, NoDup_Permutation; try assumption. intro x. rewrite Ia, Ib. tauto.
Qed.
Lemma zeros_filter : forall z (P Q : R -> Prop) f a, lists_zeros z P a -> (forall x, f x = true <-> Q x) -> lists_zeros z (fun x => P x /\ Q x) (filter f a).
Proof.
  intros z P Q f a [N I] F. split; [apply NoDup_filter, N|]. intro x. rewrite filter_In, I, F. tauto.
Qed.
Lemma NoDup_opp : forall l, NoDup l -> NoDup (map Ropp l).
Proof. intros l. apply FinFun.Injective_map_NoDup. intros x y H. lra. Qed.

Lemma NoDup_join : forall (a b : list R), NoDup a -> NoDup b -> (forall x, In x a -> In x b -> False) -> NoDup (a ++ b).
Proof.
  induction a as [|x a IH]; intros b Na Nb D; [exact Nb|]. inversion Na; subst. cbn. constructor.
  - rewrite in_app_iff. intros [C|C]; [contradiction|]. apply (D x); [left; reflexivity|exact C].
  - apply IH; [assumption|assumption|]. intros y Hy. apply D. right. exact Hy.
Qed.

(** the zero lists of even and odd functions *)
Lemma zeros_even : forall (z : R -> R) L zs, 0 < L -> (forall x, -L <= x <= L -> z (- x) = z x) -> z 0 <> 0 -> lists_zeros z (fun x => 0 < x < L) zs ->
  lists_zeros z (fun x => - L < x < L) (map Ropp zs ++ zs).
Proof.
  intros z L zs HL Ev Z0 [N I]. split.
  - assert (forall x, In x (map Ropp zs) -> x < 0) as Neg. { intros x Hx. apply in_map_iff in Hx. destruct Hx as (y & <- & Hy). apply I in Hy. lra. }
    apply NoDup_join; [apply NoDup_opp, N|exact N|]. intros x H1 H2. apply Neg in H1. apply I in H2. lra.
  - intro x. rewrite in_app_iff, in_map_iff. split.
    + intros [(y & <- & Hy)|Hy]; apply I in Hy; destruct Hy as [Hy Zy]; (split; [lra|]); [rewrite Ev by lra; exact Zy|exact Zy].
    + intros [Hx Zx]. destruct (Rtotal_order x 0) as [C|[C|C]]; [left|subst; contradiction|right; apply I; split; [lra|exact Zx]].
      exists (- x). split; [ring|]. apply I. split; [lra|]. rewrite Ev by lra. exact Zx.
Qed.

Lemma zeros_odd : forall (z : R -> R) L zs, 0 < L -> (forall x, -L <= x <= L -> z (- x) = - z x) -> lists_zeros z (fun x => 0 < x < L) zs ->
  lists_zeros z (fun x => - L < x < L) (map Ropp zs ++ 0 :: zs).
Proof.
  intros z L zs HL Od [N I]. assert (z 0 = 0) as Z0. { pose proof (Od 0 ltac:(lra)) as Q. rewrite Ropp_0 in Q. lra. } split.
  - assert (forall x, In x (map Ropp zs) -> x < 0) as Neg. { intros x Hx. apply in_map_iff in Hx. destruct Hx as (y & <- & Hy). apply I in Hy. lra. }
    apply NoDup_join; [apply NoDup_opp, N|constructor; [|exact N]|].
    + intro Q. apply I in Q. lra.
    + intros x H1 [<-|H2]; apply Neg in H1; [lra|]. apply I in H2. lra.
  - intro x. rewrite in_app_iff, in_map_iff. cbn [In]. split.
    + intros [(y & <- & Hy)|[<-|Hy]]; [apply I in Hy; destruct Hy as [Hy Zy]; split; [lra|]; rewrite Od by lra; lra|split; [lra|exact Z0]|apply I in Hy; destruct Hy; split; [lra|assumption]].
    + intros [Hx Zx]. destruct (Rtotal_order x 0) as [C|[C|C]]; [left|right; left; lra|right; right; apply I; split; [lra|exact Zx]].
      exists (- x). split; [ring|]. apply I. split; [lra|]. rewrite Od by lra. lra.
Qed.

(** extension of a function on [0, L] to [-L, L] with a sign *)
Definition ext (c : R) (g : R -> R) (x : R) : R := if Rle_dec 0 x then g x else c * g (- x).
Lemma ext_pos c g x : 0 <= x -> ext c g x = g x.
Proof. intro H. unfold ext. destruct (Rle_dec 0 x); [reflexivity|contradiction]. Qed.
Lemma ext_neg c g x : x < 0 -> ext c g x = c * g (- x).
Proof. intro H. unfold ext. destruct (Rle_dec 0 x); [lra|reflexivity]. Qed.
Lemma near_pos : forall x, 0 < x -> locally x (fun t => 0 <= t).
Proof. intros x Hx. exists (mkposreal x Hx). intros t Ht. change (Rabs (t - x) < x) in Ht. apply Rabs_def2 in Ht. lra. Qed.
Lemma near_neg : forall x, x < 0 -> locally x (fun t => t < 0).
Proof. intros x Hx. assert (0 < - x) as Hy by lra. exists (mkposreal (- x) Hy). intros t Ht. change (Rabs (t - x) < - x) in Ht. apply Rabs_def2 in Ht. lra. Qed.
Lemma opp_continuous : forall (g : R -> R) x, continuous g (- x) -> continuous (fun t => g (- t)) x.
Proof. intros g x C. apply (continuous_comp (fun t : R => - t) g); [|exact C]. apply (continuous_opp (fun t : R => t : R)). apply continuous_id. Qed.
Lemma ext_continuous : forall c (g : R -> R) x, continuous g (Rabs x) -> x <> 0 \/ c = 1 \/ c = -1 /\ g 0 = 0 -> continuous (ext c g) x.
Proof.
  intros c g x C H. destruct (Rtotal_order x 0) as [L|[L|L]].
  - apply continuous_ext_loc with (fun t => c * g (- t)).
    + generalize (near_neg x L). apply filter_imp. intros t Ht. symmetry. apply ext_neg, Ht.
    + apply (continuous_mult (fun _ => c) (fun t => g (- t))); [apply continuous_const|]. apply opp_continuous. rewrite Rabs_left in C by exact L. exact C.
  - subst x. rewrite Rabs_R0 in C. pose proof (opp_continuous g 0 ltac:(rewrite Ropp_0; exact C)) as C'. destruct H as [H|H]; [lra|].
    assert (ext c g 0 = g 0) as E0 by (apply ext_pos; lra).
    intros P HP. rewrite E0 in HP. unfold filtermap.
    assert (locally 0 (fun t => P (g t))) as L1 by (apply C, HP).
    assert (locally 0 (fun t => P (c * g (- t)))) as L2.
    { assert (continuous (fun t => c * g (- t)) 0) as C2 by (apply (continuous_mult (fun _ => c) (fun t => g (- t))); [apply continuous_const|exact C']).
      apply C2. rewrite Ropp_0. replace (c * g 0) with (g 0); [exact HP|]. destruct H as [->|[-> ->]]; ring. }
    generalize (filter_and _ _ L1 L2). apply filter_imp. intros t [P1 P2]. unfold ext. destruct (Rle_dec 0 t); assumption.
  - apply continuous_ext_loc with g.
    + generalize (near_pos x L). apply filter_imp. intros t Ht. symmetry. apply ext_pos, Ht.
    + rewrite Rabs_pos_eq in C by lra. exact C.
Qed.
Lemma ext_derive_pos : forall c (g : R -> R) x d, 0 < x -> is_derive g x d -> is_derive (ext c g) x d.
Proof.
  intros c g x d L D. apply is_derive_ext_loc with g; [|exact D]. generalize (near_pos x L). apply filter_imp. intros t Ht. symmetry. apply ext_pos, Ht.
Qed.
Lemma opp_derive : forall (g : R -> R) x d, is_derive g (- x) d -> is_derive (fun t => g (- t)) x (- d).
Proof.
  intros g x d D. assert (is_derive (fun t : R => - t) x (-1)) as I by (auto_derive; [exact Logic.I|ring]).
  pose proof (is_derive_comp g (fun t : R => - t) x d (-1) D I) as Q. replace (- d) with (scal (-1) d); [exact Q|]. unfold scal; cbn. unfold mult; cbn. ring.
Qed.
Lemma ext_derive_neg : forall c (g : R -> R) x d, x < 0 -> is_derive g (- x) d -> is_derive (ext c g) x (- c * d).
Proof.
  intros c g x d L D. apply is_derive_ext_loc with (fun t => c * g (- t)).
  - generalize (near_neg x L). apply filter_imp. intros t Ht. symmetry. apply ext_neg, Ht.
  - replace (- c * d) with (c * - d) by ring. apply (is_derive_scal (fun t => g (- t))), opp_derive, D.
Qed.

Section Symmetric.
Variables (V : R -> R) (L : R) (l : list sec) (side : Y).
Hypothesis PT : partition 0 L l.
Hypothesis Ho : forall s, In s l -> smin s < smax s.
Hypothesis Bd : bounded_on V l.
Hypothesis Ev : even_potential V l.
Hypothesis Ns : y0 side <> 0 \/ y1 side <> 0.
Notation full := (both_halves l).

Lemma sector_range : forall (s : sec), In s l -> 0 <= smin s /\ smax s <= L.
Proof using PT Ho.
  assert (forall (k : list sec) lo hi, chain lo hi k -> (forall s, In s k -> smin s < smax s) -> lo <= hi /\ forall s, In s k -> lo <= smin s /\ smax s <= hi) as G.
  { induction k as [|t r IH]; intros lo hi C O; cbn in C; [subst; split; [lra|intros s []]|]. destruct C as [<- C].
    destruct (IH (smax t) hi C ltac:(intros; apply O; right; assumption)) as [G1 G2]. pose proof (O t (or_introl eq_refl)). split; [lra|].
    intros s [<-|Hs]; [lra|]. specialize (G2 s Hs). lra. }
  intros s Hs. apply (G l 0 L (proj2 PT) Ho), Hs.
Qed.
Lemma Lpos : 0 < L.
Proof using PT Ho.
  assert (forall k : list sec, k <> [] -> exists s, In s k) as G by (intros [|s r] H; [contradiction|exists s; left; reflexivity]).
  destruct (G l (proj1 PT)) as [s Hs]. pose proof (sector_range s Hs). pose proof (Ho s Hs). lra.
Qed.
Lemma full_order : forall s, In s full -> smin s < smax s.
Proof using Ho. intros s H. apply in_both in H. destruct H as [H|(t & H & ->)]; [apply Ho, H|]. cbn. specialize (Ho t H). lra. Qed.
Lemma full_bound : exists M, 0 <= M /\ forall s x, In s full -> smin s < x < smax s -> Rabs (V x) <= M.
Proof using Bd Ev.
  destruct Bd as [M B]. exists (Rabs M). split; [apply Rabs_pos|]. intros s x H Hx. apply Rle_trans with M; [|apply Rle_abs].
  apply in_both in H. destruct H as [H|(t & H & ->)]; [apply (B s), Hx; exact H|]. cbn in Hx.
  rewrite <- (Ropp_involutive x), (Ev t) by (try exact H; lra). apply (B t); [exact H|lra].
Qed.

(** the reflection of a solution is a solution *)
Lemma reflect_solution : forall E z z', solution V E (- L) L full z z' -> solution V E (- L) L full (fun x => z (- x)) (fun x => - z' (- x)).
Proof using Ev PT Ho.
  intros E z z' [C D]. split.
  - intros x Hx. destruct (C (- x)) as [C1 C2]; [lra|]. split; [apply opp_continuous, C1|]. apply (continuous_opp (fun x => z' (- x))). apply opp_continuous, C2.
  - intros s x Hs Hx.
    assert (is_derive z (- x) (z' (- x)) /\ is_derive z' (- x) ((V x - E) * z (- x))) as [D1 D2].
    { apply in_both in Hs. destruct Hs as [Hs|(t & Hs & ->)].
      - rewrite <- (Ev s x Hs Hx). apply (D (reflected s)); [apply in_both_left, Hs|]. cbn. lra.
      - cbn in Hx. replace (V x) with (V (- x)) by (rewrite <- (Ropp_involutive x) at 2; symmetry; apply (Ev t); [exact Hs|lra]).
        apply (D t); [apply in_both_right, Hs|lra]. }
    split; [apply opp_derive, D1|]. replace ((V x - E) * z (- x)) with (- - ((V x - E) * z (- x))) by ring.
    apply (is_derive_opp (fun x => z' (- x))). apply opp_derive, D2.
Qed.
(** extension of a solution on [0, L] *)
Lemma ext_solution : forall E c z z', solution V E 0 L l z z' -> c = 1 /\ z' 0 = 0 \/ c = -1 /\ z 0 = 0 -> solution V E (- L) L full (ext c z) (ext (- c) z').
Proof using Ev PT Ho.
  intros E c z z' [C D] H. assert (forall x, - L <= x <= L -> 0 <= Rabs x <= L) as Rg by (intros x Hx; split; [apply Rabs_pos|apply Rabs_le; lra]). split.
  - intros x Hx. destruct (C (Rabs x) (Rg x Hx)) as [C1 C2]. split; (apply ext_continuous; [assumption|]); right.
    + destruct H as [[-> _]|[-> Z]]; [left; reflexivity|right; split; [reflexivity|exact Z]].
    + destruct H as [[-> Z]|[-> _]]; [right; split; [ring|exact Z]|left; ring].
  - intros s x Hs Hx. apply in_both in Hs. destruct Hs as [Hs|(t & Hs & ->)].
    + pose proof (sector_range s Hs). destruct (D s x Hs Hx) as [D1 D2]. rewrite !ext_pos by lra. split; apply ext_derive_pos; (lra || assumption).
    + cbn in Hx. pose proof (sector_range t Hs). destruct (D t (- x) Hs ltac:(lra)) as [D1 D2]. rewrite !ext_neg by lra. split; [apply ext_derive_neg; [lra|exact D1]|].
      replace (V x) with (V (- x)) by (rewrite <- (Ropp_involutive x) at 2; symmetry; apply (Ev t); [exact Hs|lra]).
      replace ((V (- x) - E) * (c * z (- x))) with (- - c * ((V (- x) - E) * z (- x))) by ring. apply ext_derive_neg; [lra|exact D2].
Qed.
Lemma restrict_solution : forall E z z', solution V E (- L) L full z z' -> solution V E 0 L l z z'.
Proof using PT Ho.
  intros E z z' [C D]. pose proof Lpos. split; [intros x Hx; apply C; lra|]. intros s x Hs Hx. apply (D s); [apply in_both_right, Hs|exact Hx].
Qed.

(** an eigenfunction of the symmetric problem is even or odd *)
Lemma eigenfunction_parity : forall E z z', solution V E (- L) L full z z' -> nontrivial z z' (- L) L -> z (- L) * - y1 side = z' (- L) * y0 side -> z L * y1 side = z' L * y0 side ->
  z' 0 = 0 /\ z 0 <> 0 /\ (forall x, - L <= x <= L -> z (- x) = z x) \/ z 0 = 0 /\ z' 0 <> 0 /\ (forall x, - L <= x <= L -> z (- x) = - z x).
Proof using Ev PT Ho Bd Ns.
  intros E z z' S N BL BR. pose proof Lpos as HL. pose proof (reflect_solution E z z' S) as S'.
  destruct (parallel (z L) (z' L) (z (- L)) (- z' (- L))) as (c & Hc & P1 & P2).
  - apply (N L). lra.
  - destruct (N (- L) ltac:(lra)) as [Q|Q]; [left; exact Q|right; lra].
  - assert (forall a b p q s0 s1, s0 <> 0 \/ s1 <> 0 -> p * - s1 = q * s0 -> a * s1 = b * s0 -> a * - q = b * p) as G.
    { intros a b p q s0 s1 [H|H] H1 H2; [apply (Rmult_eq_reg_r s0)|apply (Rmult_eq_reg_r s1)]; try exact H.
      - replace (a * - q * s0) with (- a * (q * s0)) by ring. rewrite <- H1. replace (b * p * s0) with (p * (b * s0)) by ring. rewrite <- H2. ring.
      - replace (a * - q * s1) with (- q * (a * s1)) by ring. rewrite H2. replace (b * p * s1) with (- b * (p * - s1)) by ring. rewrite H1. ring. }
    apply (G _ _ _ _ (y0 side) (y1 side)); assumption.
  - destruct full_bound as (M & HM & B).
    pose proof (fun x Hx => solution_unique V full (- L) L M (proj2 (both_partition L l PT)) (fun s Hs => Rlt_le _ _ (full_order s Hs)) B HM E _ _ _ _ S' S c L ltac:(lra) P1 P2 x Hx) as U. cbv beta in U.
    destruct (U 0 ltac:(lra)) as [U1 U2]. rewrite Ropp_0 in U1, U2.
    destruct (Req_dec (z 0) 0) as [Z|Z].
    + destruct (N 0 ltac:(lra)) as [Q|Q]; [contradiction|]. right. split; [exact Z|]. split; [exact Q|].
      assert (c = -1) as -> by (apply (Rmult_eq_reg_r (z' 0)); [lra|exact Q]). intros x Hx. rewrite (proj1 (U x Hx)). ring.
    + left. assert (c = 1) as -> by (apply (Rmult_eq_reg_r (z 0)); [lra|exact Z]). split; [lra|]. split; [exact Z|]. intros x Hx. rewrite (proj1 (U x Hx)). ring.
Qed.

Definition pos (x : R) : bool := if Rlt_dec 0 x then true else false.
Lemma pos_zeros : forall z zs, lists_zeros z (fun x => - L < x < L) zs -> lists_zeros z (fun x => 0 < x < L) (filter pos zs).
Proof using PT Ho.
  intros z zs H. pose proof Lpos. apply (same_zeros z (fun x => - L < x < L /\ 0 < x)); [|intros; lra].
  apply zeros_filter; [exact H|]. intro x. unfold pos. destruct (Rlt_dec 0 x); split; intro; (assumption || reflexivity || discriminate || contradiction).
Qed.

Lemma full_to_half : forall n E, symmetric_index V L l side n E -> exists k, n = (2 * k)%Z /\ eigen_index V 0 L l Neumann side k E \/ n = (2 * k + 1)%Z /\ eigen_index V 0 L l Dirichlet side k E.
Proof using Ev PT Ho Bd Ns.
  intros n E (z & z' & zs & S & N & BL & BR & Z & ->). cbn in BL. pose proof Lpos as HL. pose proof (pos_zeros z zs Z) as Zp.
  assert (nontrivial z z' 0 L) as N' by (intros x Hx; apply N; lra). pose proof (restrict_solution E z z' S) as S'.
  exists (Z.of_nat (length (filter pos zs))). destruct (eigenfunction_parity E z z' S N BL BR) as [(Z0 & N0 & P)|(Z0 & N0 & P)]; [left|right].
  - split.
    + rewrite (zeros_length _ _ _ _ Z (zeros_even z L _ HL P N0 Zp)), app_length, map_length. lia.
    + exists z, z', (filter pos zs). cbn. repeat (split; [assumption || lra|]). reflexivity.
  - split.
    + rewrite (zeros_length _ _ _ _ Z (zeros_odd z L _ HL P Zp)), app_length, map_length. cbn [length]. lia.
    + exists z, z', (filter pos zs). cbn. repeat (split; [assumption || lra|]). reflexivity.
Qed.
Lemma half_to_full : forall c left k E, c = 1 /\ left = Neumann \/ c = -1 /\ left = Dirichlet -> eigen_index V 0 L l left side k E ->
  symmetric_index V L l side (2 * k + (if Rlt_dec c 0 then 1 else 0)) E.
Proof using Ev PT Ho Ns.
  intros c left k E Hc (z & z' & zs & S & N & BL & BR & Z & ->). pose proof Lpos as HL.
  assert (c = 1 /\ z' 0 = 0 \/ c = -1 /\ z 0 = 0) as H. { destruct Hc as [[-> ->]|[-> ->]]; cbn in BL; [left|right]; split; lra. }
  pose proof (ext_solution E c z z' S H) as SE.
  assert (forall x, x = 0 \/ 0 < x \/ x < 0) as Tri by (intro x; destruct (Rtotal_order x 0) as [?|[?|?]]; tauto).
  assert (c = 1 \/ c = -1) as C1 by tauto. assert (c * c = 1) as CC by (destruct C1 as [-> | ->]; ring). assert (c <> 0) as C0 by (destruct C1; lra).
  assert (forall x, -L <= x <= L -> ext c z (- x) = c * ext c z x) as Par.
  { intros x Hx. destruct (Tri x) as [->|[T|T]].
    - rewrite Ropp_0, ext_pos by lra. destruct H as [[-> _]|[-> ->]]; ring.
    - rewrite ext_neg, ext_pos, Ropp_involutive by lra. reflexivity.
    - rewrite ext_pos, ext_neg by lra. rewrite <- Rmult_assoc, CC. ring. }
  assert (exists ys, lists_zeros (ext c z) (fun x => - L < x < L) ys /\ (2 * Z.of_nat (length zs) + (if Rlt_dec c 0 then 1 else 0))%Z = Z.of_nat (length ys)) as (ys & Zy & Ly).
  { assert (lists_zeros (ext c z) (fun x => 0 < x < L) zs) as Zp. { destruct Z as [Nd I]. split; [exact Nd|]. intro x. rewrite I. split; intros [Hx Q]; (split; [exact Hx|]); [rewrite ext_pos by lra; exact Q|rewrite ext_pos in Q by lra; exact Q]. }
    destruct H as [[-> Q]|[-> Q]].
    - exists (map Ropp zs ++ zs). split; [apply zeros_even; try assumption|].
      + intros x Hx. rewrite Par by exact Hx. ring.
      + rewrite ext_pos by lra. destruct (N 0 ltac:(lra)) as [A|A]; [exact A|lra].
      + rewrite app_length, map_length. destruct (Rlt_dec 1 0); [lra|lia].
    - exists (map Ropp zs ++ 0 :: zs). split; [apply zeros_odd; try assumption|].
      + intros x Hx. rewrite Par by exact Hx. ring.
      + rewrite app_length, map_length. cbn [length]. destruct (Rlt_dec (-1) 0); [lia|lra]. }
  exists (ext c z), (ext (- c) z'), ys. split; [exact SE|]. split; [|split; [|split; [|split; [exact Zy|exact Ly]]]].
  - intros x Hx. destruct (Tri x) as [->|[T|T]].
    + rewrite !ext_pos by lra. apply N. lra.
    + rewrite !ext_pos by lra. apply N. lra.
    + rewrite !ext_neg by lra. destruct (N (- x) ltac:(lra)) as [A|A]; [left|right]; apply Rmult_integral_contrapositive; split; (lra || assumption).
  - cbn. rewrite !ext_neg, Ropp_involutive by lra. replace (c * z L * - y1 side) with (- c * (z L * y1 side)) by ring. rewrite BR. ring.
  - rewrite !ext_pos by lra. exact BR.
Qed.
End Symmetric.
