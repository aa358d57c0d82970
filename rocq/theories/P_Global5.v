(** Matching errors against the exact problem; brackets around exact eigenvalues. *)
From Coq Require Import String Reals ZArith Lra Lia.
From Coquelicot Require Import Coquelicot.
From Coq Require Import List Bool.
From Verif Require Import Base S_Sectors S_Legendre S_Formulas M_Sectors M_Core S_Core M_Formulas S_Accuracy P_Lookup P_Core P_Core2 P_Global P_Global2 P_Global3 P_Global4.
Import ListNotations.
Open Scope R_scope.

Lemma boundary_lo : forall (l : list sec) lo hi, partition lo hi l -> is_boundary lo l.
Proof. intros [|s l] lo hi [Hne C]; [congruence|]. destruct C as [E _]. exists s. split; [left; reflexivity|left; exact E]. Qed.
Lemma boundary_hi : forall (l : list sec) lo hi, partition lo hi l -> is_boundary hi l.
Proof.
  intros l lo hi [Hne C]. revert lo C. induction l as [|s l IH]; intros lo C; [congruence|]. destruct C as [E C]. destruct l as [|t l].
  - cbn in C. exists s. split; [left; reflexivity|right; exact C].
  - destruct (IH ltac:(discriminate) _ C) as (w & Hw & B). exists w. split; [right; exact Hw|exact B].
Qed.

Lemma product_error : forall a b c d a0 b0 c0 d0 e f, N1 (a - a0) (b - b0) <= e -> N1 (c - c0) (d - d0) <= f ->
  Rabs (b * c - d * a - (b0 * c0 - d0 * a0)) <= e * N1 c0 d0 + N1 a0 b0 * f + e * f.
Proof.
  intros a b c d a0 b0 c0 d0 e f He Hf.
  replace (b * c - d * a - (b0 * c0 - d0 * a0)) with
    (((b - b0) * c0 - (a - a0) * d0) + (b0 * (c - c0) - a0 * (d - d0)) + ((b - b0) * (c - c0) - (a - a0) * (d - d0))) by ring.
  assert (forall x y z w, Rabs (x * z - y * w) <= N1 x y * N1 z w) as P.
  { intros x y z w. eapply Rle_trans; [apply Rabs_triang|]. rewrite Rabs_Ropp, !Rabs_mult. unfold N1.
    pose proof (Rabs_pos x). pose proof (Rabs_pos y). pose proof (Rabs_pos z). pose proof (Rabs_pos w).
    assert (0 <= Rabs x * Rabs w) by (apply Rmult_le_pos; assumption). assert (0 <= Rabs y * Rabs z) by (apply Rmult_le_pos; assumption). lra. }
  pose proof (P (b - b0) (a - a0) c0 d0) as P1. pose proof (P b0 a0 (c - c0) (d - d0)) as P2. pose proof (P (b - b0) (a - a0) (c - c0) (d - d0)) as P3.
  assert (N1 (b - b0) (a - a0) <= e) as He' by (unfold N1 in *; lra). assert (N1 b0 a0 = N1 a0 b0) as E0 by (unfold N1; ring). rewrite E0 in P2.
  assert (N1 (b - b0) (a - a0) * N1 c0 d0 <= e * N1 c0 d0) by (apply Rmult_le_compat_r; [apply N1_nonneg|exact He']).
  assert (N1 a0 b0 * N1 (c - c0) (d - d0) <= N1 a0 b0 * f) by (apply Rmult_le_compat_l; [apply N1_nonneg|exact Hf]).
  assert (N1 (b - b0) (a - a0) * N1 (c - c0) (d - d0) <= e * f) by (apply Rmult_le_compat; auto using N1_nonneg).
  pose proof (Rabs_triang ((b - b0) * c0 - (a - a0) * d0 + (b0 * (c - c0) - a0 * (d - d0))) ((b - b0) * (c - c0) - (a - a0) * (d - d0))).
  pose proof (Rabs_triang ((b - b0) * c0 - (a - a0) * d0) (b0 * (c - c0) - a0 * (d - d0))). lra.
Qed.

Lemma matching_accuracy : forall B W D L, 0 <= B -> 0 <= W -> 0 <= D -> 0 <= L -> exists K, 0 <= K /\
  forall vm l m sm lo hi V E H tau u left right yL yL' yR yR',
  partition lo hi l -> hi - lo <= L -> H <= 1 -> 0 <= tau <= D -> (forall s, In s l -> sector_ok V E B W H tau s) -> vget l m = Ret sm ->
  solution V E lo hi l yL yL' -> yL lo = y0 left -> yL' lo = y1 left ->
  solution V E lo hi l yR yR' -> yR hi = y0 right -> yR' hi = y1 right ->
  exists err derr dth, matchingError (calculateT eta_code) vm l m lo hi E left right u = Ret (err, derr, dth) /\
    Rabs (err - (yL' (smax sm) * yR (smax sm) - yR' (smax sm) * yL (smax sm)))
      <= K * N1 (y0 left) (y1 left) * N1 (y0 right) (y1 right) * (H ^ ord u + tau + INR (length l) / 10 ^ 20).
Proof.
  intros B W D L HB HW HD HL. destruct (propagation_accuracy B W D L HB HW HD HL) as (K & HK & HP).
  exists (2 * (K * K) + K * K * (1 + D + L)). assert (0 <= K * K) as HKK by (apply Rmult_le_pos; assumption).
  assert (0 <= K * K * (1 + D + L)) as HKD by (apply Rmult_le_pos; lra). split; [lra|].
  intros vm l m sm lo hi V E H tau u left right yL yL' yR yR' PT Hlen HH Htau Hok Hm SL L0 L1 SR R0 R1.
  pose proof PT as [Hne Ch].
  assert (0 < / 10 ^ 12) as E12 by (apply Rinv_0_lt_compat, pow_lt; lra). assert (0 < / 10 ^ 20) as E20 by (apply Rinv_0_lt_compat, pow_lt; lra).
  assert (forall s, In s l -> 0 < sh s <= H) as Hsh by (intros s Hs; destruct (Hok s Hs) as (_ & Q & _); lra).
  assert (0 < H <= 1) as HH0. { destruct l as [|s0 l0]; [congruence|]. specialize (Hsh s0 (or_introl eq_refl)). lra. }
  assert (forall s, In s l -> smin s <= smax s) as Hle by (intros s Hs; specialize (Hsh s Hs); unfold sh in Hsh; lra).
  destruct (chain_order l lo hi Ch Hle) as [Hlh CO]. destruct (vget_ret _ _ _ Hm) as [_ Hn]. apply nth_error_In in Hn. destruct (CO sm Hn) as [C1 C2]. pose proof (Hle sm Hn).
  assert (is_boundary (smax sm) l) as Bm by (exists sm; auto). pose proof (boundary_lo _ _ _ PT) as Bl. pose proof (boundary_hi _ _ _ PT) as Bh.
  destruct (HP vm l lo hi V E H tau yL yL' lo (smax sm) u left 0 PT Hlen HH Htau Hok SL ltac:(lra) ltac:(lra) ltac:(left; auto)) as (ZL & tl & PL & GL & DL).
  destruct (HP vm l lo hi V E H tau yR yR' hi (smax sm) u right 0 PT Hlen HH Htau Hok SR ltac:(lra) ltac:(lra) ltac:(left; auto)) as (ZR & tr & PR & GR & DR).
  unfold matchingError. rewrite Hm. cbn [bind]. rewrite PL. cbn [bind]. rewrite PR. cbn [bind].
  eexists. eexists. eexists. split; [reflexivity|].
  assert (dist left (yL lo) (yL' lo) = 0) as Z0 by (unfold dist, N1; rewrite L0, L1, !Rminus_eq_0, Rabs_R0; ring).
  assert (dist right (yR hi) (yR' hi) = 0) as Z1 by (unfold dist, N1; rewrite R0, R1, !Rminus_eq_0, Rabs_R0; ring).
  rewrite Z0, Rplus_0_l in DL. rewrite Z1, Rplus_0_l in DR. rewrite L0, L1, Rplus_0_r in *. rewrite R0, R1 in *. 
  assert (0 <= H ^ ord u <= 1) as Hord by (split; [apply pow_le; lra|rewrite <- (pow1 (ord u)); apply pow_incr; lra]).
  assert (0 <= INR (length l) / 10 ^ 20) as Hn20 by (apply Rmult_le_pos; [apply pos_INR|lra]).
  assert (INR (length l) / 10 ^ 20 <= L) as HnL. { eapply Rle_trans; [apply (count_bound l lo hi Ch)|exact Hlen]. intros s Hs. destruct (Hok s Hs) as (_ & Q & _). apply Q. }
  set (ea := H ^ ord u + tau + INR (length l) / 10 ^ 20) in *. assert (0 <= ea <= 1 + D + L) as Hea by (unfold ea; lra).
  set (NL := N1 (y0 left) (y1 left)) in *. set (NR := N1 (y0 right) (y1 right)) in *. assert (0 <= NL) as HNL by apply N1_nonneg. assert (0 <= NR) as HNR by apply N1_nonneg.
  unfold dist in DL, DR. pose proof (product_error _ _ _ _ _ _ _ _ _ _ DL DR) as P.
  eapply Rle_trans; [exact P|]. clear P.
  assert (0 <= NL * ea) by (apply Rmult_le_pos; lra). assert (0 <= NR * ea) by (apply Rmult_le_pos; lra).
  assert (0 <= K * (NL * ea)) by (apply Rmult_le_pos; lra). assert (0 <= K * (NR * ea)) by (apply Rmult_le_pos; lra).
  assert (K * (NL * ea) * N1 (yR (smax sm)) (yR' (smax sm)) <= K * (NL * ea) * (K * NR)) by (apply Rmult_le_compat_l; assumption).
  assert (N1 (yL (smax sm)) (yL' (smax sm)) * (K * (NR * ea)) <= K * NL * (K * (NR * ea))) by (apply Rmult_le_compat_r; assumption).
  assert (K * K * NL * NR * ea * ea <= K * K * NL * NR * ea * (1 + D + L)).
  { apply Rmult_le_compat_l; [|lra]. repeat apply Rmult_le_pos; lra. }
  lra.
Qed.

(** ---- exact solutions: growth, uniqueness, continuity in the energy *)
Lemma decreasing_on : forall (f g : R -> R) p q, p <= q ->
  (forall x, p < x < q -> is_derive f x (g x)) -> (forall x, p <= x <= q -> continuous f x) -> (forall x, p < x < q -> g x <= 0) -> f q <= f p.
Proof.
  intros f g p q Hpq Hd Hc Hg.
  pose proof (decreasing_open (fun t => f (p + t)) (fun t => g (p + t)) (q - p)) as K.
  assert (forall t, is_derive (fun t => p + t) t 1) as D1 by (intro t; auto_derive; [exact I|ring]).
  assert (f (p + (q - p)) <= f (p + 0)) as R; [|rewrite Rplus_0_r in R; replace (p + (q - p)) with q in R by ring; exact R].
  apply K; try lra.
  - intros x Hx. evar_last; [apply (is_derive_comp f (fun t => p + t)); [apply Hd; lra|apply D1]|]. unfold scal; simpl; unfold mult; simpl; ring.
  - intros x Hx. apply (continuous_comp (fun t => p + t) f); [apply (ex_derive_continuous (fun t => p + t)); exists 1; apply D1|apply Hc; lra].
  - intros x Hx. apply Hg. lra.
Qed.
Lemma chain_decreasing : forall (f f' : R -> R) (l : list sec) lo hi, chain lo hi l -> (forall s, In s l -> smin s <= smax s) ->
  (forall x, lo <= x <= hi -> continuous f x) -> (forall s x, In s l -> smin s < x < smax s -> is_derive f x (f' x) /\ f' x <= 0) ->
  forall a b, lo <= a <= b -> b <= hi -> f b <= f a.
Proof.
  intros f f' l. induction l as [|s l IH]; intros lo hi C O Hc Hd a b Ha Hb.
  - cbn in C. subst. assert (a = b) by lra. subst. lra.
  - cbn in C. destruct C as [E C]. pose proof (O s (or_introl eq_refl)) as Os.
    destruct (chain_order l (smax s) hi C ltac:(intros; apply O; right; assumption)) as [Hsh _].
    assert (forall p q, lo <= p <= q -> q <= smax s -> f q <= f p) as First.
    { intros p q Hp Hq. apply (decreasing_on f f' p q); [lra|..].
      - intros x Hx. apply (Hd s x (or_introl eq_refl)). lra.
      - intros x Hx. apply Hc. lra.
      - intros x Hx. apply (Hd s x (or_introl eq_refl)). lra. }
    assert (forall p q, smax s <= p <= q -> q <= hi -> f q <= f p) as Rest.
    { intros p q Hp Hq. apply (IH (smax s) hi C); try lra.
      - intros; apply O; right; assumption.
      - intros x Hx. apply Hc. lra.
      - intros t x Ht. apply Hd. right. exact Ht. }
    destruct (Rle_lt_dec b (smax s)); [apply First; lra|]. destruct (Rle_lt_dec (smax s) a); [apply Rest; lra|].
    apply Rle_trans with (f (smax s)); [apply Rest; lra|apply First; lra].
Qed.

Lemma energy_bound : forall (e e1 q g : R -> R) (l : list sec) lo hi M P, chain lo hi l -> (forall s, In s l -> smin s <= smax s) -> 0 <= M -> 0 <= P ->
  (forall x, lo <= x <= hi -> continuous e x /\ continuous e1 x) ->
  (forall s x, In s l -> smin s < x < smax s -> is_derive e x (e1 x) /\ is_derive e1 x (q x * e x + g x) /\ Rabs (q x) <= M /\ Rabs (g x) <= P) ->
  forall a b, lo <= a <= hi -> lo <= b <= hi ->
  e b * e b + e1 b * e1 b + P * P <= exp ((3 + M) * Rabs (b - a)) * (e a * e a + e1 a * e1 a + P * P).
Proof.
  intros e e1 q g l lo hi M P C O HM HP Hc Hd a b Ha Hb.
  set (c := 3 + M). set (u := fun x => e x * e x + e1 x * e1 x + P * P).
  set (du := fun x => 2 * (e x * e1 x) + 2 * (e1 x * (q x * e x + g x))).
  assert (forall s x, In s l -> smin s < x < smax s -> is_derive u x (du x) /\ Rabs (du x) <= c * u x) as Hu.
  { intros s x Hs Hx. destruct (Hd s x Hs Hx) as (D1 & D2 & D3 & D4). split.
    - unfold u, du. auto_derive; [repeat split; eexists; eassumption|].
      change (Derive (fun x => e x) x) with (Derive e x). change (Derive (fun x => e1 x) x) with (Derive e1 x).
      rewrite (is_derive_unique _ _ _ D1), (is_derive_unique _ _ _ D2). ring.
    - unfold du, u, c. set (p := e x). set (r := e1 x). set (Q := q x) in *. set (G := g x) in *.
      assert (Rabs (2 * (p * r)) <= p * p + r * r) as A1. { apply Rabs_le. pose proof (Rle_0_sqr (p + r)). pose proof (Rle_0_sqr (p - r)). unfold Rsqr in *. lra. }
      assert (Rabs (2 * (r * G)) <= r * r + P * P) as A2.
      { assert (G * G <= P * P). { replace (G * G) with (Rabs G * Rabs G) by (rewrite <- Rabs_mult; apply Rabs_right; pose proof (Rle_0_sqr G); unfold Rsqr in *; lra). apply Rmult_le_compat; auto using Rabs_pos. }
        apply Rabs_le. pose proof (Rle_0_sqr (r + G)). pose proof (Rle_0_sqr (r - G)). unfold Rsqr in *. lra. }
      assert (Rabs (2 * (p * r) * Q) <= (p * p + r * r) * M) as A3 by (rewrite Rabs_mult; apply Rmult_le_compat; auto using Rabs_pos).
      replace (2 * (p * r) + 2 * (r * (Q * p + G))) with (2 * (p * r) + 2 * (p * r) * Q + 2 * (r * G)) by ring.
      pose proof (Rabs_triang (2 * (p * r) + 2 * (p * r) * Q) (2 * (r * G))). pose proof (Rabs_triang (2 * (p * r)) (2 * (p * r) * Q)).
      pose proof (Rle_0_sqr p). pose proof (Rle_0_sqr r). unfold Rsqr in *. assert (0 <= P * P) by (apply Rmult_le_pos; lra).
      assert (0 <= M * (P * P)) by (apply Rmult_le_pos; lra). lra. }
  assert (forall x, lo <= x <= hi -> continuous u x) as Cu.
  { intros x Hx. destruct (Hc x Hx) as [C1 C2]. unfold u. apply (continuous_plus (fun x => e x * e x + e1 x * e1 x) (fun _ => P * P)); [|apply continuous_const].
    apply (continuous_plus (fun x => e x * e x) (fun x => e1 x * e1 x)); [apply (continuous_mult e e)|apply (continuous_mult e1 e1)]; assumption. }
  assert (forall k x, continuous (fun x => exp (k * x)) x) as Ce by (intros k x; apply (ex_derive_continuous (fun x => exp (k * x))); auto_derive; exact I).
  assert (forall k x d, is_derive u x d -> is_derive (fun x => exp (k * x) * u x) x (exp (k * x) * (d + k * u x))) as De.
  { intros k x d Hx. auto_derive; [eexists; eassumption|]. change (Derive (fun x => u x) x) with (Derive u x). rewrite (is_derive_unique _ _ _ Hx). ring. }
  change (u b <= exp (c * Rabs (b - a)) * u a).
  destruct (Rle_lt_dec a b) as [Hab|Hab].
  - rewrite Rabs_right by lra.
    assert (exp (- c * b) * u b <= exp (- c * a) * u a) as F.
    { apply (chain_decreasing (fun x => exp (- c * x) * u x) (fun x => exp (- c * x) * (du x + - c * u x)) l lo hi C O); try lra.
      - intros x Hx. apply (continuous_mult (fun x => exp (- c * x)) u); [apply Ce|apply Cu, Hx].
      - intros s x Hs Hx. destruct (Hu s x Hs Hx) as [D1 D2]. split; [apply De, D1|]. pose proof (exp_pos (- c * x)). pose proof (Rle_abs (du x)).
        rewrite <- (Rmult_0_r (exp (- c * x))). apply Rmult_le_compat_l; lra. }
    apply (Rmult_le_compat_l (exp (c * b))) in F; [|left; apply exp_pos]. rewrite <- !Rmult_assoc, <- !exp_plus in F.
    replace (c * b + - c * b) with 0 in F by ring. rewrite exp_0, Rmult_1_l in F. replace (c * (b - a)) with (c * b + - c * a) by ring. exact F.
  - rewrite Rabs_left by lra.
    assert (- (exp (c * a) * u a) <= - (exp (c * b) * u b)) as F.
    { apply (chain_decreasing (fun x => - (exp (c * x) * u x)) (fun x => - (exp (c * x) * (du x + c * u x))) l lo hi C O); try lra.
      - intros x Hx. apply (continuous_opp (fun x => exp (c * x) * u x)). apply (continuous_mult (fun x => exp (c * x)) u); [apply Ce|apply Cu, Hx].
      - intros s x Hs Hx. destruct (Hu s x Hs Hx) as [D1 D2]. split; [apply (is_derive_opp (fun x => exp (c * x) * u x)), De, D1|]. pose proof (exp_pos (c * x)).
        assert (0 <= exp (c * x) * (du x + c * u x)); [|lra]. apply Rmult_le_pos; [lra|]. pose proof (Rle_abs (- du x)). rewrite Rabs_Ropp in *. lra. }
    assert (exp (c * b) * u b <= exp (c * a) * u a) as F' by lra.
    apply (Rmult_le_compat_l (exp (- c * b))) in F'; [|left; apply exp_pos]. rewrite <- !Rmult_assoc, <- !exp_plus in F'.
    replace (- c * b + c * b) with 0 in F' by ring. rewrite exp_0, Rmult_1_l in F'. replace (c * - (b - a)) with (- c * b + c * a) by ring. exact F'.
Qed.

Section Exact.
Variables (V : R -> R) (l : list sec) (lo hi M : R).
Hypothesis Ch : chain lo hi l.
Hypothesis Hle : forall s, In s l -> smin s <= smax s.
Hypothesis HM : forall s x, In s l -> smin s < x < smax s -> Rabs (V x) <= M.
Hypothesis HM0 : 0 <= M.

Lemma abs_VE : forall E s x, In s l -> smin s < x < smax s -> Rabs (V x - E) <= M + Rabs E.
Proof. intros E s x Hs Hx. pose proof (HM s x Hs Hx). pose proof (Rabs_triang (V x) (- E)). rewrite Rabs_Ropp in *. unfold Rminus. lra. Qed.

(** two solutions of the same equation that agree at one point agree everywhere *)
Lemma solution_unique : forall E y y' z z', solution V E lo hi l y y' -> solution V E lo hi l z z' ->
  forall k a, lo <= a <= hi -> y a = k * z a -> y' a = k * z' a -> forall x, lo <= x <= hi -> y x = k * z x /\ y' x = k * z' x.
Proof.
  intros E y y' z z' [Y1 Y2] [Z1 Z2] k a Ha A1 A2 x Hx.
  pose proof (energy_bound (fun x => y x - k * z x) (fun x => y' x - k * z' x) (fun x => V x - E) (fun _ => 0) l lo hi (M + Rabs E) 0 Ch Hle) as G.
  cbv beta in G. pose proof (Rabs_pos E).
  assert (0 <= M + Rabs E) as H0 by lra. specialize (G H0 (Rle_refl 0)).
  assert (forall f g : R -> R, forall t, continuous f t -> continuous g t -> continuous (fun x => f x - k * g x) t) as Cc.
  { intros f g t Hf Hg. apply (continuous_minus f (fun x => k * g x)); [exact Hf|]. apply (continuous_mult (fun _ => k) g); [apply continuous_const|exact Hg]. }
  assert (forall (f g : R -> R) t df dg, is_derive f t df -> is_derive g t dg -> is_derive (fun x => f x - k * g x) t (df - k * dg)) as Dc.
  { intros f g t df dg Hf Hg. auto_derive; [repeat split; eexists; eassumption|].
    change (Derive (fun x => f x) t) with (Derive f t). change (Derive (fun x => g x) t) with (Derive g t).
    rewrite (is_derive_unique _ _ _ Hf), (is_derive_unique _ _ _ Hg). ring. }
  assert (forall t, lo <= t <= hi -> continuous (fun x : R => y x - k * z x) t /\ continuous (fun x : R => y' x - k * z' x) t) as H1.
  { intros t Ht. destruct (Y1 t Ht), (Z1 t Ht). split; apply Cc; assumption. }
  specialize (G H1).
  assert (forall (s : sec) t, In s l -> smin s < t < smax s -> is_derive (fun x => y x - k * z x) t (y' t - k * z' t) /\
    is_derive (fun x => y' x - k * z' x) t ((V t - E) * (y t - k * z t) + 0) /\ Rabs (V t - E) <= M + Rabs E /\ Rabs 0 <= 0) as H2.
  { intros s t Hs Ht. destruct (Y2 s t Hs Ht) as [P1 P2]. destruct (Z2 s t Hs Ht) as [Q1 Q2]. split; [|split; [|split]].
    - apply Dc; assumption.
    - evar_last; [apply (Dc y' z' t _ _ P2 Q2)|]. ring.
    - apply (abs_VE E s t Hs Ht).
    - rewrite Rabs_R0. lra. }
  specialize (G H2 a x Ha Hx).
  rewrite A1, A2, !Rminus_eq_0 in G. rewrite !Rmult_0_l, !Rplus_0_r, Rmult_0_r in G.
  pose proof (Rle_0_sqr (y x - k * z x)) as S1. pose proof (Rle_0_sqr (y' x - k * z' x)) as S2. unfold Rsqr in *.
  assert ((y x - k * z x) * (y x - k * z x) = 0) as E1 by lra. assert ((y' x - k * z' x) * (y' x - k * z' x) = 0) as E2 by lra.
  apply Rmult_integral in E1. apply Rmult_integral in E2. split; lra.
Qed.

(** solutions with the same values at a: Lipschitz in the energy, uniformly on the interval *)
Lemma solution_lip : forall E0 y y' a, lo <= a <= hi -> solution V E0 lo hi l y y' -> exists C, 0 <= C /\
  forall E z z', Rabs (E - E0) <= 1 -> solution V E lo hi l z z' -> z a = y a -> z' a = y' a ->
  forall b, lo <= b <= hi -> Rabs (z b - y b) <= C * Rabs (E - E0) /\ Rabs (z' b - y' b) <= C * Rabs (E - E0).
Proof.
  intros E0 y y' a Ha [C0 D0]. set (c1 := y a). set (c2 := y' a).
  set (M1 := M + Rabs E0 + 1). pose proof (Rabs_pos E0) as HE0.
  assert (exists S, 0 <= S /\ forall x, lo <= x <= hi -> Rabs (y x) <= S) as (S & HS & Hbd).
  { pose proof (energy_bound y y' (fun x => V x - E0) (fun _ => 0) l lo hi (M + Rabs E0) 0 Ch Hle ltac:(lra) ltac:(lra) C0) as G. cbv beta in G.
    assert (forall (s : sec) t, In s l -> smin s < t < smax s -> is_derive y t (y' t) /\ is_derive y' t ((V t - E0) * y t + 0) /\ Rabs (V t - E0) <= M + Rabs E0 /\ Rabs 0 <= 0) as H2.
    { intros s t Hs Ht. destruct (D0 s t Hs Ht) as [P1 P2]. split; [exact P1|]. split; [rewrite Rplus_0_r; exact P2|]. split; [apply (abs_VE E0 s t Hs Ht)|rewrite Rabs_R0; lra]. }
    set (Q := exp ((3 + (M + Rabs E0)) * (hi - lo)) * (c1 * c1 + c2 * c2)).
    pose proof (Rle_0_sqr c1). pose proof (Rle_0_sqr c2). unfold Rsqr in *.
    assert (0 <= Q) as HQ by (apply Rmult_le_pos; [left; apply exp_pos|lra]).
    exists (1 + Q). split; [lra|]. intros x Hx. specialize (G H2 a x Ha Hx). rewrite !Rmult_0_l, !Rplus_0_r in G.
    assert (exp ((3 + (M + Rabs E0)) * Rabs (x - a)) <= exp ((3 + (M + Rabs E0)) * (hi - lo))) as Ex.
    { assert (Rabs (x - a) <= hi - lo) by (apply Rabs_le; lra). destruct (Req_dec (Rabs (x - a)) (hi - lo)) as [->|Hne]; [lra|]. left. apply exp_increasing. apply Rmult_lt_compat_l; lra. }
    assert (exp ((3 + (M + Rabs E0)) * Rabs (x - a)) * (c1 * c1 + c2 * c2) <= Q) as G2 by (apply Rmult_le_compat_r; lra).
    unfold c1, c2 in *. pose proof (Rle_0_sqr (y' x)). unfold Rsqr in *. assert (y x * y x <= Q) as G3 by lra.
    assert (Rabs (y x) * Rabs (y x) <= Q) as G4. { rewrite <- Rabs_mult, Rabs_right; [exact G3|]. pose proof (Rle_0_sqr (y x)). unfold Rsqr in *. lra. }
    pose proof (Rabs_pos (y x)). destruct (Rle_lt_dec (Rabs (y x)) 1); [lra|]. nra. }
  set (C := exp ((3 + M1) * (hi - lo)) * (S * S)).
  assert (0 <= C) as HC by (apply Rmult_le_pos; [left; apply exp_pos|apply Rmult_le_pos; lra]).
  exists (1 + C). split; [lra|]. intros E z z' HE [CE DE] B0 B0' b Hb. set (d := Rabs (E - E0)) in *. assert (0 <= d) as Hd0 by apply Rabs_pos.
  pose proof (energy_bound (fun x => z x - y x) (fun x => z' x - y' x) (fun x => V x - E) (fun x => - (E - E0) * y x) l lo hi M1 (d * S) Ch Hle) as G. cbv beta in G.
  assert (0 <= M1) as G0 by (unfold M1; lra). specialize (G G0 ltac:(apply Rmult_le_pos; lra)).
  assert (forall t, lo <= t <= hi -> continuous (fun x : R => z x - y x) t /\ continuous (fun x : R => z' x - y' x) t) as H1.
  { intros t Ht. destruct (CE t Ht), (C0 t Ht). split; [apply (continuous_minus z y)|apply (continuous_minus z' y')]; assumption. }
  specialize (G H1).
  assert (forall (s : sec) t, In s l -> smin s < t < smax s -> is_derive (fun x => z x - y x) t (z' t - y' t) /\
    is_derive (fun x => z' x - y' x) t ((V t - E) * (z t - y t) + - (E - E0) * y t) /\ Rabs (V t - E) <= M1 /\ Rabs (- (E - E0) * y t) <= d * S) as H2.
  { intros s t Hs Ht. destruct (DE s t Hs Ht) as [P1 P2]. destruct (D0 s t Hs Ht) as [Q1 Q2]. split; [|split; [|split]].
    - apply (is_derive_minus z y); assumption.
    - evar_last; [apply (is_derive_minus z' y' t _ _ P2 Q2)|]. unfold minus, plus, opp; simpl. ring.
    - pose proof (abs_VE E s t Hs Ht) as B1. pose proof (Rabs_triang E0 (E - E0)) as B2.
      replace (E0 + (E - E0)) with E in B2 by ring. fold d in B2. unfold M1. lra.
    - rewrite Rabs_mult, Rabs_Ropp. fold d. apply Rmult_le_compat_l; [exact Hd0|]. apply Hbd.
      destruct (chain_order l lo hi Ch Hle) as [_ CO]. destruct (CO s Hs). lra. }
  specialize (G H2 a b Ha Hb). rewrite B0, B0', !Rminus_eq_0, !Rmult_0_l, !Rplus_0_l in G.
  assert (exp ((3 + M1) * Rabs (b - a)) <= exp ((3 + M1) * (hi - lo))) as Ex.
  { assert (Rabs (b - a) <= hi - lo) by (apply Rabs_le; lra). destruct (Req_dec (Rabs (b - a)) (hi - lo)) as [->|Hne]; [lra|]. left. apply exp_increasing. apply Rmult_lt_compat_l; lra. }
  assert (0 <= d * S * (d * S)) as Hds by (apply Rmult_le_pos; apply Rmult_le_pos; lra).
  assert (exp ((3 + M1) * Rabs (b - a)) * (d * S * (d * S)) <= C * (d * d)) as G2.
  { unfold C. replace (exp ((3 + M1) * (hi - lo)) * (S * S) * (d * d)) with (exp ((3 + M1) * (hi - lo)) * (d * S * (d * S))) by ring. apply Rmult_le_compat_r; assumption. }
  pose proof (Rle_0_sqr (z b - y b)). pose proof (Rle_0_sqr (z' b - y' b)). unfold Rsqr in *.
  assert (forall w, w * w <= C * (d * d) -> Rabs w <= (1 + C) * d) as Root.
  { intros w Hw. apply Rabs_le. assert (0 <= (1 + C) * d) by (apply Rmult_le_pos; lra).
    assert (w * w <= ((1 + C) * d) * ((1 + C) * d)). { assert (0 <= d * d) by (apply Rmult_le_pos; lra). assert (0 <= (1 + C + C * C) * (d * d)) by (apply Rmult_le_pos; [nra|lra]). lra. }
    split; nra. }
  split; apply Root; lra.
Qed.

(** families of solutions with fixed values at a: continuous in the energy *)
Definition clampE (p q x : R) : R := Rmax p (Rmin x q).
Lemma clampE_range : forall p q x, p <= q -> p <= clampE p q x <= q.
Proof. intros. unfold clampE, Rmax, Rmin. repeat destruct (Rle_dec _ _); lra. Qed.
Lemma clampE_in : forall p q x, p <= x <= q -> clampE p q x = x.
Proof. intros. unfold clampE, Rmax, Rmin. repeat destruct (Rle_dec _ _); lra. Qed.
Lemma clampE_lip : forall p q x y, p <= q -> Rabs (clampE p q x - clampE p q y) <= Rabs (x - y).
Proof. intros. unfold clampE, Rmax, Rmin, Rabs. repeat destruct (Rle_dec _ _); repeat destruct (Rcase_abs _); lra. Qed.
Lemma solution_continuous : forall (y y' : R -> R -> R) a c1 c2 p q, lo <= a <= hi -> p <= q ->
  (forall E, p <= E <= q -> solution V E lo hi l (y E) (y' E) /\ y E a = c1 /\ y' E a = c2) ->
  forall b F0, lo <= b <= hi -> continuous (fun E => y (clampE p q E) b) F0 /\ continuous (fun E => y' (clampE p q E) b) F0.
Proof.
  intros y y' a c1 c2 p q Ha Hpq Hf b F0 Hb. set (E0 := clampE p q F0). assert (p <= E0 <= q) as HE0pq by (apply clampE_range; exact Hpq).
  destruct (Hf E0 HE0pq) as (S0 & A0 & A0').
  destruct (solution_lip E0 (y E0) (y' E0) a Ha S0) as (C & HC & L0).
  assert (forall E, p <= E <= q -> Rabs (E - E0) <= 1 -> Rabs (y E b - y E0 b) <= (1 + C) * Rabs (E - E0) /\ Rabs (y' E b - y' E0 b) <= (1 + C) * Rabs (E - E0)) as Lip.
  { intros E HEpq HE. destruct (Hf E HEpq) as (SE & B0 & B0'). destruct (L0 E (y E) (y' E) HE SE ltac:(congruence) ltac:(congruence) b Hb) as [L1 L2].
    pose proof (Rabs_pos (E - E0)). split; lra. }
  assert (forall f : R -> R, (forall E, p <= E <= q -> Rabs (E - E0) <= 1 -> Rabs (f E - f E0) <= (1 + C) * Rabs (E - E0)) -> continuous (fun E => f (clampE p q E)) F0) as Cont.
  { intros f Hf0. apply (continuity_pt_filterlim (fun E => f (clampE p q E))). intros eps Heps. exists (Rmin 1 (eps / (2 + C))).
    assert (0 < eps / (2 + C)) by (apply Rdiv_lt_0_compat; lra). split; [apply Rmin_glb_lt; lra|].
    intros x [_ Hx]. unfold dist in *. simpl in *. unfold R_dist in *. pose proof (Rmin_l 1 (eps / (2 + C))). pose proof (Rmin_r 1 (eps / (2 + C))).
    pose proof (clampE_lip p q x F0 Hpq) as Hcl. fold E0 in Hcl |- *.
    eapply Rle_lt_trans; [apply Hf0; [apply clampE_range; exact Hpq|lra]|].
    apply Rle_lt_trans with ((1 + C) * (eps / (2 + C))); [apply Rmult_le_compat_l; lra|].
    apply Rlt_le_trans with ((2 + C) * (eps / (2 + C))); [apply Rmult_lt_compat_r; lra|]. right. field. lra. }
  split; [apply (Cont (fun E => y E b))|apply (Cont (fun E => y' E b))]; intros E HEpq HE; apply (Lip E HEpq HE).
Qed.

(** a sign change of the exact matching function *)
Lemma bracket_exact : forall (yL yL' yR yR' : R -> R -> R) (left right : Y) m p q, lo <= m <= hi -> p < q ->
  (forall E, p <= E <= q -> solution V E lo hi l (yL E) (yL' E) /\ yL E lo = y0 left /\ yL' E lo = y1 left) ->
  (forall E, p <= E <= q -> solution V E lo hi l (yR E) (yR' E) /\ yR E hi = y0 right /\ yR' E hi = y1 right) ->
  let w E := yL' E m * yR E m - yR' E m * yL E m in
  (w p < 0 < w q) \/ (w q < 0 < w p) -> nonzero left -> exists E, p < E < q /\ eigenvalue V E lo hi l left right.
Proof.
  intros yL yL' yR yR' left right m p q Hm Hpq HL HR w Hw Hnz.
  assert (lo <= hi) as Hlh by lra.
  set (f := fun E => w (clampE p q E)).
  assert (Ranalysis1.continuity f) as Cf.
  { intro E. apply continuity_pt_filterlim.
    destruct (solution_continuous yL yL' lo _ _ p q ltac:(lra) ltac:(lra) HL m E Hm) as [L0 L1].
    destruct (solution_continuous yR yR' hi _ _ p q ltac:(lra) ltac:(lra) HR m E Hm) as [R0 R1].
    apply (continuous_minus (fun E => yL' (clampE p q E) m * yR (clampE p q E) m) (fun E => yR' (clampE p q E) m * yL (clampE p q E) m));
      [apply (continuous_mult (fun E => yL' (clampE p q E) m) (fun E => yR (clampE p q E) m))|apply (continuous_mult (fun E => yR' (clampE p q E) m) (fun E => yL (clampE p q E) m))]; assumption. }
  assert (f p = w p) as Fp by (unfold f; rewrite clampE_in by lra; reflexivity). assert (f q = w q) as Fq by (unfold f; rewrite clampE_in by lra; reflexivity).
  destruct (IVT_gen f p q 0 Cf) as (E & HE & HfE).
  { rewrite Fp, Fq. unfold Rmin, Rmax. repeat destruct (Rle_dec _ _); lra. }
  rewrite Rmin_left, Rmax_right in HE by lra. unfold f in HfE. rewrite clampE_in in HfE by exact HE.
  assert (E <> p) by (intros ->; lra). assert (E <> q) by (intros ->; lra).
  exists E. split; [lra|]. destruct (HL E HE) as (SL & L0 & L1). destruct (HR E HE) as (SR & R0 & R1).
  exists (yL E), (yL' E). split; [exact SL|]. split; [exact L0|]. split; [exact L1|]. split; [rewrite L0, L1; exact Hnz|].
  rewrite <- R0, <- R1. unfold w in HfE.
  destruct (Req_dec (yR E m) 0) as [Hz|Hz].
  - destruct (Req_dec (yR' E m) 0) as [Hz'|Hz'].
    + destruct (solution_unique E _ _ _ _ SR SL 0 m Hm ltac:(lra) ltac:(lra) hi ltac:(lra)) as [U1 U2]. rewrite U1, U2. ring.
    + destruct (solution_unique E _ _ _ _ SL SR (yL' E m / yR' E m) m Hm) with (x := hi) as [U1 U2]; [| |lra|rewrite U1, U2; ring].
      * rewrite Hz in *. assert (yR' E m * yL E m = 0) as Q by lra. apply Rmult_integral in Q. rewrite Rmult_0_r. destruct Q; [contradiction|assumption].
      * field. exact Hz'.
  - destruct (solution_unique E _ _ _ _ SL SR (yL E m / yR E m) m Hm) with (x := hi) as [U1 U2]; [| |lra|rewrite U1, U2; ring].
    + field. exact Hz.
    + apply (Rmult_eq_reg_r (yR E m)); [|exact Hz]. field_simplify; [lra|exact Hz].
Qed.
End Exact.

Lemma V_bounded : forall B W D, 0 <= B -> 0 <= W -> 0 <= D -> exists M, 0 <= M /\
  forall V E H tau (s : sec) x, sector_ok V E B W H tau s -> H <= 1 -> 0 <= tau <= D -> smin s < x < smax s -> Rabs (V x - E) <= M.
Proof.
  intros B W D HB HW HD. destruct (potential_bound B W HB HW) as (M & HM & HP). exists (M + D). split; [lra|].
  intros V E H tau s x (Hdir & Hh & Hv & Hw & HV) HH Htau Hx. specialize (HV x Hx).
  assert (0 < / 10 ^ 12) as E12 by (apply Rinv_0_lt_compat, pow_lt; lra).
  replace (V x - E) with ((V x - sector_pot s x) + (sector_pot s x - E)) by ring. eapply Rle_trans; [apply Rabs_triang|].
  assert (Rabs (sector_pot s x - E) <= M); [|lra]. apply (HP (fun k => nth k (spay s) 0) (sh s) E Hv Hw ltac:(lra)). unfold sh. destruct (sdir s); lra.
Qed.
