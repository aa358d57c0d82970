(** Solutions of one energy, ordered by their angles; the turn of a solution over one period. *)
From Coq Require Import Reals ZArith Lra Lia Bool.
From Coquelicot Require Import Coquelicot.
From Coq Require Import List.
From Verif Require Import Base M_Sectors S_Sectors P_Lookup M_Core S_Core P_Core P_Core2 P_Prufer S_Formulas P_Terms2 S_Accuracy S_Zeros P_Lift P_Lift2 P_Cross P_Global2 P_Global3 P_Global5 P_Step P_Step2 P_Count P_Count2 P_Sturm P_Sturm2 T_Zeros S_Search T_Search T_Sturm M_Periodic S_Hill.
Import ListNotations.
Open Scope R_scope.

Section Hill.
Variables (V : R -> R) (l : list sec) (lo hi M : R).
Hypothesis PT : partition lo hi l.
Hypothesis Ho : forall s, In s l -> smin s < smax s.
Hypothesis HM : forall s x, In s l -> smin s < x < smax s -> Rabs (V x) <= M.
Hypothesis HM0 : 0 <= M.
Hypothesis Hlh : lo < hi.

Lemma wronskian : forall E y y' z z', solution V E lo hi l y y' -> solution V E lo hi l z z' ->
  forall a b, lo <= a <= hi -> lo <= b <= hi -> y a * z' a - y' a * z a = y b * z' b - y' b * z b.
Proof using PT Ho.
  intros E y y' z z' [Cy Dy] [Cz Dz].
  assert (forall sg, forall x, lo <= x <= hi -> continuous (fun x => sg * (y x * z' x - y' x * z x)) x) as C.
  { intros sg x Hx. destruct (Cy x Hx), (Cz x Hx). apply (continuous_mult (fun _ => sg)); [apply continuous_const|].
    apply (continuous_minus (fun x => y x * z' x) (fun x => y' x * z x)); [apply (continuous_mult y z')|apply (continuous_mult y' z)]; auto. }
  assert (forall sg, forall a b, lo <= a <= b -> b <= hi -> sg * (y b * z' b - y' b * z b) <= sg * (y a * z' a - y' a * z a)) as K.
  { intro sg. apply (chain_decreasing (fun x => sg * (y x * z' x - y' x * z x)) (fun _ => 0) l lo hi (proj2 PT)); [intros s Hs; left; apply Ho, Hs|apply C|].
    intros s x Hs Hx. split; [|lra]. destruct (Dy s x Hs Hx) as [D1 D2], (Dz s x Hs Hx) as [D3 D4].
    evar_last; [apply (is_derive_scal (fun x => y x * z' x - y' x * z x) x sg); apply (is_derive_minus (fun x => y x * z' x) (fun x => y' x * z x)); [apply (is_derive_mult y z'); [exact D1|exact D4|intros; apply Rmult_comm]|apply (is_derive_mult y' z); [exact D2|exact D3|intros; apply Rmult_comm]]|].
    unfold minus, plus, opp, scal; simpl; unfold mult; simpl; ring. }
  assert (forall a b, lo <= a <= b -> b <= hi -> y a * z' a - y' a * z a = y b * z' b - y' b * z b) as K2.
  { intros a b Ha Hb. pose proof (K 1 a b Ha Hb). pose proof (K (-1) a b Ha Hb). lra. }
  intros a b Ha Hb. destruct (Rle_lt_dec a b); [apply K2; lra|symmetry; apply K2; lra].
Qed.
Lemma solution_comb : forall E y y' z z' p q, solution V E lo hi l y y' -> solution V E lo hi l z z' ->
  solution V E lo hi l (fun x => p * y x + q * z x) (fun x => p * y' x + q * z' x).
Proof using.
  clear PT Ho HM HM0 Hlh. intros E y y' z z' p q [Cy Dy] [Cz Dz].
  assert (forall (f g : R -> R) x, continuous f x -> continuous g x -> continuous (fun x => p * f x + q * g x) x) as C.
  { intros f g x Hf Hg. apply (continuous_plus (fun x => p * f x) (fun x => q * g x)); [apply (continuous_mult (fun _ => p) f)|apply (continuous_mult (fun _ => q) g)]; auto using continuous_const. }
  assert (forall (f g : R -> R) x a b, is_derive f x a -> is_derive g x b -> is_derive (fun x => p * f x + q * g x) x (p * a + q * b)) as D.
  { intros f g x a b Hf Hg. apply (is_derive_plus (fun x => p * f x) (fun x => q * g x)); apply is_derive_scal; auto. }
  split.
  - intros x Hx. destruct (Cy x Hx), (Cz x Hx). split; apply C; auto.
  - intros s x Hs Hx. destruct (Dy s x Hs Hx) as [D1 D2], (Dz s x Hs Hx) as [D3 D4]. split; [apply D; auto|].
    replace ((V x - E) * (p * y x + q * z x)) with (p * ((V x - E) * y x) + q * ((V x - E) * z x)) by ring. apply D; auto.
Qed.

Section Two.
Variables (E : R) (y y' z z' f g : R -> R).
Hypothesis Sy : solution V E lo hi l y y'.
Hypothesis Sz : solution V E lo hi l z z'.
Hypothesis Ny : nontrivial y y' lo hi.
Hypothesis Nz : nontrivial z z' lo hi.
Hypothesis Ay : ang 1 y y' lo hi f.
Hypothesis Az : ang 1 z z' lo hi g.

(** two solutions of one energy: if the angles agree modulo pi at one point, they do everywhere *)
Lemma mult_spread : forall a, lo <= a <= hi -> multiple_of_pi (f a - g a) -> forall x, lo <= x <= hi -> f x - g x = f a - g a.
Proof using PT Ho HM HM0 Sy Sz Ny Nz Ay Az.
  intros a Ha [k Hk].
  assert (forall x, lo <= x <= hi -> y x * cos (f x) = y' x * sin (f x)) as Qy. { intros x Hx. pose proof (proj2 Ay x Hx) as Q. cbv beta in Q. lra. }
  assert (forall x, lo <= x <= hi -> z x * cos (g x) = z' x * sin (g x)) as Qz. { intros x Hx. pose proof (proj2 Az x Hx) as Q. cbv beta in Q. lra. }
  pose proof (parallel_sides _ _ _ _ (f a) (g a) k (Ny a Ha) (Qy a Ha) (Qz a Ha) Hk) as PA.
  destruct (parallel _ _ _ _ (Ny a Ha) (Nz a Ha) PA) as (j & Hj & J0 & J1).
  assert (forall x, lo <= x <= hi -> z x = j * y x /\ z' x = j * y' x) as U.
  { apply (solution_unique V l lo hi M (proj2 PT) ltac:(intros s Hs; left; apply Ho, Hs) HM HM0 E z z' y y' Sz Sy j a Ha J0 J1). }
  assert (forall x, lo <= x <= hi -> multiple_of_pi (f x - g x)) as Mp.
  { intros x Hx. apply (angles_pi (y x) (y' x)); [apply Ny, Hx|apply Qy, Hx|]. pose proof (Qz x Hx) as Q. destruct (U x Hx) as [-> ->] in Q. apply (Rmult_eq_reg_l j); [lra|exact Hj]. }
  assert (forall x, continuous (fun x => f x - g x) x) as C. { intro x. apply (continuous_minus f g); [apply Ay|apply Az]. }
  intros x Hx. pose proof (discrete_const (fun x => f x - g x) lo hi C Mp x Hx) as Q1. pose proof (discrete_const (fun x => f x - g x) lo hi C Mp a Ha) as Q2. cbv beta in Q1, Q2. lra.
Qed.
(** ... and the whole number of half turns between them is the same everywhere *)
Lemma flr_const : forall a b, lo <= a <= hi -> lo <= b <= hi -> flr (f a - g a) = flr (f b - g b).
Proof using PT Ho HM HM0 Sy Sz Ny Nz Ay Az.
  assert (forall a b, lo <= a -> a <= b -> b <= hi -> flr (f a - g a) = flr (f b - g b)) as K.
  { intros a b Ha Hab Hb. pose proof PIpos as HP. destruct (Z.eq_dec (flr (f a - g a)) (flr (f b - g b))) as [Q|Q]; [exact Q|exfalso].
    set (h := fun x => f x - g x). assert (forall x, continuous h x) as C. { intro x. apply (continuous_minus f g); [apply Ay|apply Az]. }
    assert (exists k x, a <= x <= b /\ h x = IZR k * PI) as (k & x & Hx & Hk).
    { pose proof (flr_spec (f a - g a)) as Sa. pose proof (flr_spec (f b - g b)) as Sb. set (ka := flr (f a - g a)) in *. set (kb := flr (f b - g b)) in *.
      assert (exists k, Rmin (h a) (h b) <= IZR k * PI <= Rmax (h a) (h b)) as (k & Hk).
      { destruct (Z.lt_total ka kb) as [L|[L|L]]; [|congruence|].
        - exists kb. assert (IZR ka + 1 <= IZR kb) as L' by (rewrite <- plus_IZR; apply IZR_le; lia). apply (Rmult_le_compat_r PI) in L'; [|lra].
          unfold h. rewrite Rmin_left, Rmax_right by lra. lra.
        - exists ka. assert (IZR kb + 1 <= IZR ka) as L' by (rewrite <- plus_IZR; apply IZR_le; lia). apply (Rmult_le_compat_r PI) in L'; [|lra].
          unfold h. rewrite Rmin_right, Rmax_left by lra. lra. }
      destruct (IVT_gen h a b (IZR k * PI)) as (x & Hx & Ex); [intro t; apply continuity_pt_filterlim, C|exact Hk|]. rewrite Rmin_left, Rmax_right in Hx by lra. exists k, x. auto. }
    unfold h in Hk. pose proof (mult_spread x ltac:(lra) (ex_intro _ k Hk)) as MS. apply Q. rewrite (MS a), (MS b) by lra. reflexivity. }
  intros a b Ha Hb. destruct (Rle_lt_dec a b); [apply K; lra|symmetry; apply K; lra].
Qed.
End Two.

(** the solution leaving lo with angle a arrives at hi with angle b *)
Definition turned (E a b : R) : Prop := exists z z' f, solution V E lo hi l z z' /\ nontrivial z z' lo hi /\ ang 1 z z' lo hi f /\ f lo = a /\ f hi = b.

Lemma turned_shift : forall E a b k, turned E a b -> turned E (a + IZR k * PI) (b + IZR k * PI).
Proof using.
  clear PT Ho HM HM0 Hlh. intros E a b k (z & z' & f & S & N & A & F1 & F2). exists z, z', (fun x => f x + IZR k * PI). split; [exact S|]. split; [exact N|]. split; [apply lift_shift, A|]. lra.
Qed.
Lemma turned_flr : forall E a b a' b', turned E a b -> turned E a' b' -> flr (a - a') = flr (b - b').
Proof using PT Ho HM HM0 Hlh.
  intros E a b a' b' (z & z' & f & S & N & A & F1 & F2) (w & w' & g & S' & N' & A' & G1 & G2). subst.
  apply (flr_const E z z' w w' f g); auto; lra.
Qed.
Lemma turned_mult : forall E a b a' b', turned E a b -> turned E a' b' -> multiple_of_pi (a - a') \/ multiple_of_pi (b - b') -> a - a' = b - b'.
Proof using PT Ho HM HM0 Hlh.
  intros E a b a' b' (z & z' & f & S & N & A & F1 & F2) (w & w' & g & S' & N' & A' & G1 & G2) [H|H]; subst.
  - symmetry. apply (mult_spread E z z' w w' f g S S' N N' A A' lo); auto; lra.
  - apply (mult_spread E z z' w w' f g S S' N N' A A' hi); auto; lra.
Qed.
Lemma turned_unique : forall E a b b', turned E a b -> turned E a b' -> b = b'.
Proof using PT Ho HM HM0 Hlh. intros E a b b' H1 H2. pose proof (turned_mult E a b a b' H1 H2 ltac:(left; exists 0%Z; cbn; lra)). lra. Qed.
Lemma turned_le : forall E a b a' b', turned E a b -> turned E a' b' -> a <= a' -> b <= b'.
Proof using PT Ho HM HM0 Hlh.
  intros E a b a' b' H1 H2 H. pose proof PIpos as HP. pose proof (turned_flr E a' b' a b H2 H1) as Q. assert (0 <= flr (a' - a))%Z as F by (apply flr_ge; rewrite Rmult_0_l; lra).
  rewrite Q in F. apply flr_ge in F. rewrite Rmult_0_l in F. lra.
Qed.
Lemma turned_lt : forall E a b a' b', turned E a b -> turned E a' b' -> a < a' -> b < b'.
Proof using PT Ho HM HM0 Hlh.
  intros E a b a' b' H1 H2 H. destruct (turned_le E a b a' b' H1 H2 ltac:(lra)) as [L|L]; [exact L|]. pose proof (turned_mult E a b a' b' H1 H2 ltac:(right; exists 0%Z; cbn; lra)). lra.
Qed.
(** turns of one energy differ by less than pi *)
Lemma turned_close : forall E a b a' b', turned E a b -> turned E a' b' -> (b - a) - (b' - a') < PI.
Proof using PT Ho HM HM0 Hlh.
  intros E a b a' b' H1 H2. pose proof (turned_flr E a b a' b' H1 H2) as Q. pose proof (flr_spec (a - a')) as S1. pose proof (flr_spec (b - b')) as S2. rewrite <- Q in S2. lra.
Qed.
(** more energy, more turn *)
Lemma turned_energy : forall E E' a b b', E < E' -> turned E a b -> turned E' a b' -> b < b'.
Proof using PT Ho Hlh.
  intros E E' a b b' HE (z & z' & f & S & N & A & F1 & F2) (w & w' & g & S' & N' & A' & G1 & G2). subst.
  pose proof (sturm l lo hi PT V E E' 1 HE ltac:(lra) z z' w w' S S' N N' Ho f g A A' 0 lo hi ltac:(lra) Hlh ltac:(lra)) as Q. rewrite Rmult_0_l in Q. lra.
Qed.
Lemma turned_low : forall E a b k, turned E a b -> IZR k * PI <= a -> IZR k * PI < b.
Proof using PT Ho Hlh.
  intros E a b k (z & z' & f & S & N & A & F1 & F2) H. subst.
  destruct (global_up l lo hi PT V E z z' S N Ho 1 f ltac:(lra) A) as [U1 U2]. apply (level_up f lo hi (proj1 A) U1 U2 k lo hi); lra.
Qed.
Lemma turned_gt : forall E a b, turned E a b -> - PI < b - a.
Proof using PT Ho Hlh.
  intros E a b H. pose proof (flr_spec a) as S. pose proof (turned_low E a b (flr a) H ltac:(lra)). lra.
Qed.
(** the number of zeros of a solution that returns to its direction *)
Lemma turned_count : forall E z z' f, solution V E lo hi l z z' -> nontrivial z z' lo hi -> ang 1 z z' lo hi f -> forall n zs, f hi = f lo + IZR n * PI -> lists_zeros z (fun x => lo < x <= hi) zs -> n = Z.of_nat (length zs).
Proof using PT Ho Hlh.
  intros E z z' f S N A n zs H L. destruct (global_count l lo hi PT V E z z' S N Ho 1 f lo hi ltac:(lra) A ltac:(lra) ltac:(lra) ltac:(lra)) as (ys & LY & Q).
  rewrite H, flr_shift in Q. assert (length ys = length zs) as EL.
  { destruct L as [N1 H1], LY as [N2 H2]. apply Nat.le_antisymm; apply NoDup_incl_length; auto; intros x Hx; [apply H1, H2, Hx|apply H2, H1, Hx]. }
  lia.
Qed.
End Hill.
