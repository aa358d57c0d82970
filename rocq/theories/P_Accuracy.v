(** Error bounds for sums of eta functions with polynomial coefficients whose residual is of high order. *)
From Coq Require Import String Reals ZArith Lra Lia.
From Coquelicot Require Import Coquelicot.
From Coq Require Import List Bool.
From Verif Require Import Base S_Eta P_Eta M_Eta P_Eta2 S_Poly S_Legendre S_Formulas M_Sectors M_TableData M_Core M_Formulas
  P_Terms P_Terms2 P_Formulas P_Gronwall.
Import ListNotations.
Open Scope R_scope.

(** ---- terms that only use v_1 ... v_15 *)
Definition idx_ok (k : nat) : bool := (1 <=? k)%nat && (k <=? 15)%nat.
Definition tgood (t : term) : bool := let (_, _, _, l) := t in forallb idx_ok l.
Notation lgood := (forallb tgood).

Lemma lgood_app : forall a b, lgood (a ++ b) = lgood a && lgood b.
Proof. apply forallb_app. Qed.
Lemma lgood_map : forall f l, (forall t, tgood t = true -> tgood (f t) = true) -> lgood l = true -> lgood (map f l) = true.
Proof.
  intros f l Hf. induction l as [|t l IH]; [reflexivity|]. cbn [map forallb]. intro H. apply andb_prop in H. destruct H as [H1 H2].
  rewrite (Hf t H1), (IH H2). reflexivity.
Qed.
Lemma lgood_filter : forall f l, lgood l = true -> lgood (filter f l) = true.
Proof.
  intros f l. induction l as [|t l IH]; [reflexivity|]. cbn [filter forallb]. intro H. apply andb_prop in H. destruct H as [H1 H2].
  destruct (f t); cbn [forallb]; [rewrite H1|]; auto.
Qed.
Lemma td1_good : forall t, tgood t = true -> tgood (td1 t) = true.
Proof. intros [c a b l]. exact (fun H => H). Qed.
Lemma tsc_good : forall k t, tgood t = true -> tgood (tsc k t) = true.
Proof. intros k [c a b l]. exact (fun H => H). Qed.
Lemma tB_good : forall i t, tgood t = true -> tgood (tB i t) = true.
Proof. intros i [c a b l]. exact (fun H => H). Qed.
Lemma tdiv1_good : forall t, tgood t = true -> tgood (tdiv1 t) = true.
Proof. intros [c a b l]. exact (fun H => H). Qed.
Lemma ins_good : forall k l, idx_ok k = true -> forallb idx_ok l = true -> forallb idx_ok (ins k l) = true.
Proof.
  intros k l Hk. induction l as [|a l IH]; cbn [ins forallb]; intro H; [rewrite Hk; reflexivity|].
  destruct (k <=? a)%nat; cbn [forallb]; [rewrite Hk; exact H|]. apply andb_prop in H. destruct H as [Ha Hl].
  rewrite Ha, (IH Hl). reflexivity.
Qed.
Lemma inss_good : forall m l, forallb idx_ok m = true -> forallb idx_ok l = true -> forallb idx_ok (fold_right ins l m) = true.
Proof.
  induction m as [|k m IH]; intros l Hm Hl; cbn [fold_right]; [exact Hl|]. cbn [forallb] in Hm. apply andb_prop in Hm.
  destruct Hm as [Hk Hm]. apply ins_good; auto.
Qed.
Lemma tmulk_good : forall s t, tgood s = true -> tgood t = true -> tgood (tmulk s t) = true.
Proof. intros [c a b l] [d a' b' m] H1 H2. cbn [tmulk tgood] in *. apply inss_good; assumption. Qed.
Lemma lmul_good : forall a b, lgood a = true -> lgood b = true -> lgood (lmul a b) = true.
Proof.
  intros a b Ha Hb. unfold lmul. induction a as [|s a IH]; [reflexivity|]. cbn [flat_map]. cbn [forallb] in Ha.
  apply andb_prop in Ha. destruct Ha as [Hs Ha]. rewrite lgood_app, (IH Ha), andb_true_r.
  apply lgood_map; [intros t Ht; apply tmulk_good; assumption|exact Hb].
Qed.
Lemma highprod_good : forall n D ks a, (forall k, In k ks -> lgood (D k) = true) -> lgood a = true -> lgood (highprod n D ks a) = true.
Proof.
  intros n D ks a HD Ha. unfold highprod. induction ks as [|k ks IH]; [reflexivity|]. cbn [flat_map].
  rewrite lgood_app, IH by (intros; apply HD; right; assumption). rewrite andb_true_r.
  apply lgood_map; [apply tsc_good|]. apply lmul_good; [apply lgood_filter, Ha|apply HD; left; reflexivity].
Qed.
Lemma Bs_good : forall i a, lgood a = true -> lgood (Bs i a) = true.
Proof. intros. unfold Bs. apply lgood_filter, lgood_map; [apply tB_good|assumption]. Qed.
Lemma resid_highs_good : forall n D ks l i b, (forall k, In k ks -> lgood (D k) = true) ->
  forallb (fun a => lgood a) l = true -> lgood b = true -> forallb (fun a => lgood a) (resid_highs n D ks i b l) = true.
Proof.
  induction l as [|a l IH]; intros i b HD Hl Hb; [reflexivity|]. cbn [resid_highs forallb] in *. cbv zeta.
  apply andb_prop in Hl. destruct Hl as [Ha Hl].
  set (bn := match l with [] => [] | a' :: _ => Bs (S i) a' end).
  assert (lgood bn = true) as Hbn.
  { unfold bn. destruct l as [|a' l']; [reflexivity|]. cbn [forallb] in Hl. apply andb_prop in Hl. apply Bs_good, Hl. }
  apply andb_true_intro. split; [|apply IH; auto].
  unfold resid_high, resid_diff. rewrite lgood_app. apply andb_true_intro. split.
  - apply lgood_filter. rewrite !lgood_app. repeat (apply andb_true_intro; split).
    + apply lgood_map; [apply td1_good|]. apply lgood_map; [apply td1_good|exact Ha].
    + apply lgood_map; [apply tsc_good|exact Hbn].
    + apply lgood_map; [apply tsc_good|exact Hb].
  - apply highprod_good; assumption.
Qed.
Lemma der_highs_good : forall n l m i c, forallb (fun a => lgood a) l = true -> forallb (fun a => lgood a) m = true ->
  lgood c = true -> forallb (fun a => lgood a) (der_highs n i c l m) = true.
Proof.
  induction l as [|a l IH]; intros [|d m] i c Hl Hm Hc; try reflexivity. cbn [der_highs forallb] in *. cbv zeta.
  apply andb_prop in Hl. destruct Hl as [Ha Hl]. apply andb_prop in Hm. destruct Hm as [Hd Hm].
  set (cn := match l with [] => [] | a' :: _ => map tdiv1 a' end).
  assert (lgood cn = true) as Hcn.
  { unfold cn. destruct l as [|a' l']; [reflexivity|]. cbn [forallb] in Hl. apply andb_prop in Hl.
    apply lgood_map; [apply tdiv1_good|apply Hl]. }
  apply andb_true_intro. split; [|apply IH; auto].
  apply lgood_filter. unfold der_diff. rewrite !lgood_app. repeat (apply andb_true_intro; split).
  - apply lgood_map; [apply td1_good|exact Ha].
  - exact Hcn.
  - apply lgood_map; [apply tsc_good|exact Hc].
  - apply lgood_map; [apply tsc_good|exact Hd].
Qed.

(** ---- bounds *)
Lemma eta_abs : forall i z, Rabs (eta i z) <= eta i (Rabs z).
Proof.
  intros i z. pose proof (is_series_unique _ _ (eta_series i z)) as E1. pose proof (is_series_unique _ _ (eta_series i (Rabs z))) as E2.
  rewrite <- E1, <- E2.
  assert (forall q, Rabs (eta_coef i q * z ^ q) = eta_coef i q * Rabs z ^ q) as Ht by (intro; apply abs_term).
  rewrite <- (Series_ext _ _ Ht). apply Series_Rabs.
  apply (ex_series_ext (fun q => eta_coef i q * Rabs z ^ q)); [intro; symmetry; apply Ht|]. exists (eta i (Rabs z)). apply eta_series.
Qed.
Lemma eta_mono : forall i x y, 0 <= x <= y -> eta i x <= eta i y.
Proof.
  intros i x y Hx. rewrite <- (is_series_unique _ _ (eta_series i x)), <- (is_series_unique _ _ (eta_series i y)).
  apply Series_le; [|exists (eta i y); apply eta_series]. intro q. pose proof (eta_coef_pos i q).
  assert (0 <= x ^ q) by (apply pow_le; lra). split; [apply Rmult_le_pos; lra|]. apply Rmult_le_compat_l; [lra|]. apply pow_incr; lra.
Qed.
Lemma eta_dec : forall i x, 0 <= x -> eta (S i) x <= eta i x.
Proof.
  intros i x Hx. rewrite <- (is_series_unique _ _ (eta_series i x)), <- (is_series_unique _ _ (eta_series (S i) x)).
  apply Series_le; [|exists (eta i x); apply eta_series]. intro q. pose proof (eta_coef_pos (S i) q).
  assert (0 <= x ^ q) by (apply pow_le; lra). split; [apply Rmult_le_pos; lra|]. apply Rmult_le_compat_r; [lra|].
  rewrite eta_coef_next. pose proof (eta_coef_pos i q). pose proof (pos_INR (q + i)).
  apply Rmult_le_reg_r with (2 * INR (q + i) + 1); [lra|]. unfold Rdiv. rewrite Rmult_assoc, Rinv_l by lra. nra.
Qed.
Lemma eta_bound : forall W i z, Rabs z <= W -> Rabs (eta i z) <= eta 0 W.
Proof.
  intros W i z H. eapply Rle_trans; [apply eta_abs|]. pose proof (Rabs_pos z).
  eapply Rle_trans; [apply (eta_mono i _ W); lra|]. induction i; [lra|]. eapply Rle_trans; [apply eta_dec; lra|exact IHi].
Qed.
Lemma eta0_nonneg : forall W, 0 <= W -> 0 <= eta 0 W.
Proof. intros W H. eapply Rle_trans; [apply Rabs_pos|]. apply (eta_bound W 0 W). rewrite Rabs_pos_eq; lra. Qed.

Definition Ct (B : R) (t : term) : R := let (c, _, _, l) := t in Rabs (IZR c) * B ^ List.length l.
Definition Cl (B : R) (l : list term) : R := fold_right (fun t acc => Ct B t + acc) 0 l.
Definition Cll (B : R) (l : list (list term)) : R := fold_right (fun a acc => Cl B a + acc) 0 l.
Lemma Ct_nonneg : forall B t, 0 <= B -> 0 <= Ct B t.
Proof. intros B [c a b l] H. apply Rmult_le_pos; [apply Rabs_pos|apply pow_le, H]. Qed.
Lemma Cl_nonneg : forall B l, 0 <= B -> 0 <= Cl B l.
Proof. intros B l H. induction l; cbn [Cl fold_right]; [lra|]. pose proof (Ct_nonneg B a H). unfold Cl in IHl. lra. Qed.
Lemma Cll_nonneg : forall B l, 0 <= B -> 0 <= Cll B l.
Proof. intros B l H. induction l; cbn [Cll fold_right]; [lra|]. pose proof (Cl_nonneg B a H). unfold Cll in IHl. lra. Qed.

Section Bound.
Variables (v : nat -> R) (h B : R).
Hypothesis HB : 0 <= B.
Hypothesis Hv : forall k, (1 <= k <= 15)%nat -> Rabs (v k) <= B.
Hypothesis Hh : 0 < h <= 1.
Lemma vprod_bound : forall l, forallb idx_ok l = true -> Rabs (vprod v l) <= B ^ List.length l.
Proof.
  induction l as [|k l IH]; intro H; cbn [vprod List.length pow]; [rewrite Rabs_R1; lra|]. cbn [forallb] in H.
  apply andb_prop in H. destruct H as [Hk Hl]. unfold idx_ok in Hk. apply andb_prop in Hk. destruct Hk as [H1 H2].
  apply Nat.leb_le in H1. apply Nat.leb_le in H2. rewrite Rabs_mult. apply Rmult_le_compat; try apply Rabs_pos; auto.
Qed.
Lemma pow_le_h : forall a n, (n <= a)%nat -> h ^ a <= h ^ n.
Proof.
  intros a n H. replace a with (n + (a - n))%nat by lia. rewrite pow_add. rewrite <- (Rmult_1_r (h ^ n)) at 2.
  apply Rmult_le_compat_l; [apply pow_le; lra|]. rewrite <- (pow1 (a - n)). apply pow_incr. lra.
Qed.
Lemma teval_bound : forall n x t, 0 <= x <= h -> tgood t = true -> (n <= tdeg t)%nat -> Rabs (teval v h x t) <= Ct B t * h ^ n.
Proof.
  intros n x [c a b l] Hx Hg Hd. cbn [teval Ct tgood tdeg] in *. rewrite !Rabs_mult.
  pose proof (vprod_bound l Hg) as Hp. pose proof (Rabs_pos (vprod v l)).
  rewrite <- !RPow_abs, (Rabs_pos_eq x), (Rabs_pos_eq h) by lra.
  assert (0 <= x ^ a) by (apply pow_le; lra). assert (0 <= h ^ b) by (apply pow_le; lra).
  assert (x ^ a * h ^ b <= h ^ n) as Hxh.
  { eapply Rle_trans; [|apply (pow_le_h (a + b) n Hd)]. rewrite pow_add. apply Rmult_le_compat_r; [assumption|]. apply pow_incr; lra. }
  pose proof (Rabs_pos (IZR c)).
  replace (Rabs (IZR c) * x ^ a * h ^ b * Rabs (vprod v l)) with (Rabs (IZR c) * (Rabs (vprod v l) * (x ^ a * h ^ b))) by ring.
  rewrite Rmult_assoc. apply Rmult_le_compat_l; [assumption|].
  apply Rmult_le_compat; auto. apply Rmult_le_pos; assumption.
Qed.
Lemma leval_bound : forall n x l, 0 <= x <= h -> lgood l = true -> (forall t, In t l -> (n <= tdeg t)%nat) ->
  Rabs (leval v h x l) <= Cl B l * h ^ n.
Proof.
  intros n x l Hx. induction l as [|t l IH]; intros Hg Hd; cbn [leval Cl fold_right]; [rewrite Rabs_R0; lra|].
  fold (leval v h x l). fold (Cl B l). cbn [forallb] in Hg. apply andb_prop in Hg. destruct Hg as [Ht Hg].
  eapply Rle_trans; [apply Rabs_triang|]. rewrite Rmult_plus_distr_r. apply Rplus_le_compat.
  - apply teval_bound; auto. apply Hd. left; reflexivity.
  - apply IH; auto. intros; apply Hd; right; assumption.
Qed.
Variables (w W : R).
Hypothesis Hw : Rabs w <= W.
Lemma et_bound : forall i x, 0 <= x <= h -> Rabs (eta i (w * (x * x))) <= eta 0 W.
Proof.
  intros i x Hx. apply eta_bound. rewrite Rabs_mult, (Rabs_pos_eq (x * x)) by nra. pose proof (Rabs_pos w).
  eapply Rle_trans; [|exact Hw]. rewrite <- (Rmult_1_r (Rabs w)) at 2. apply Rmult_le_compat_l; [assumption|]. nra.
Qed.
Lemma hsum_bound : forall n x l i, 0 <= x <= h -> forallb (fun a => lgood a) l = true ->
  (forall r t, In r l -> In t r -> (n <= tdeg t)%nat) ->
  Rabs (hsum v h w i l x) <= Cll B l * eta 0 W * h ^ n.
Proof.
  intros n x l. induction l as [|a l IH]; intros i Hx Hg Hd; cbn [hsum Cll fold_right]; [rewrite Rabs_R0; lra|].
  fold (Cll B l). cbn [forallb] in Hg. apply andb_prop in Hg. destruct Hg as [Ha Hg].
  eapply Rle_trans; [apply Rabs_triang|]. rewrite !Rmult_plus_distr_r. apply Rplus_le_compat.
  - rewrite Rabs_mult. replace (Cl B a * eta 0 W * h ^ n) with (Cl B a * h ^ n * eta 0 W) by ring.
    apply Rmult_le_compat; try apply Rabs_pos; [|apply et_bound, Hx].
    apply leval_bound; auto. intros t Ht. apply (Hd a t); [left; reflexivity|exact Ht].
  - apply IH; auto. intros r t Hr. apply Hd. right. exact Hr.
Qed.
Lemma Dsum_bound : forall D ks x, 0 <= x <= h -> (forall k, In k ks -> lgood (D k) = true) ->
  Rabs (Dsum v h D ks x) <= Cll B (map D ks).
Proof.
  intros D ks x Hx HD. unfold Dsum. induction ks as [|k ks IH]; cbn [fold_right map Cll]; [rewrite Rabs_R0; lra|].
  fold (Cll B (map D ks)). eapply Rle_trans; [apply Rabs_triang|]. apply Rplus_le_compat; [|apply IH; intros; apply HD; right; assumption].
  eapply Rle_trans; [apply (leval_bound 0); auto; [apply HD; left; reflexivity|intros; lia]|]. simpl. lra.
Qed.
End Bound.

(** ---- initial values *)
Definition is0 (t : term) : bool := let (_, a, _, _) := t in (a =? 0)%nat.
Definition at0 (l : list term) : list term := filter is0 l.
Lemma leval_at0 : forall v h l, leval v h 0 l = leval v h 0 (at0 l).
Proof.
  intros. unfold at0. induction l as [|[c a b m] l IH]; [reflexivity|]. cbn [filter is0].
  destruct (Nat.eqb_spec a 0) as [->|Ha]; cbn [leval fold_right]; fold (leval v h 0 l); rewrite IH; [reflexivity|].
  cbn [teval]. rewrite pow_i by lia. unfold leval. ring.
Qed.
Definition cst (c : Z) : term := Te c 0 0 [].
Lemma is_zero_at0 : forall v h c l, is_zero (cst (- c) :: at0 l) = true -> leval v h 0 l = IZR c.
Proof.
  intros v h c l H. apply (is_zero_val v h 0) in H. cbn [leval fold_right cst teval vprod pow] in H. fold (leval v h 0 (at0 l)) in H.
  rewrite <- leval_at0, opp_IZR in H. lra.
Qed.
(** coefficient i has value s_i at 0, and derivative t_i at 0 *)
Fixpoint init_ok (s : nat -> Z) (i : nat) (l : list (list term)) : bool :=
  match l with [] => true | a :: r => is_zero (cst (- s i) :: at0 a) && init_ok s (S i) r end.
Lemma hsum_0 : forall v h w s l i, init_ok s i l = true ->
  hsum v h w i l 0 = rsum (List.length l) (fun k => IZR (s (i + k)%nat) * eta (i + k) 0).
Proof.
  intros v h w s. induction l as [|a l IH]; intros i H; [reflexivity|]. cbn [init_ok] in H. apply andb_prop in H. destruct H as [H0 H].
  cbn [hsum List.length]. rewrite rsum_S, (IH (S i) H), (is_zero_at0 v h (s i) a H0), Nat.add_0_r. rewrite !Rmult_0_r.
  apply (f_equal (Rplus _)). apply rsum_ext. intros k Hk. replace (S i + k)%nat with (i + S k)%nat by lia. reflexivity.
Qed.
Lemma y1sum_0 : forall v h w s l i, init_ok s i (map (map td1) l) = true ->
  y1sum v h w i l 0 = rsum (List.length l) (fun k => IZR (s (i + k)%nat) * eta (i + k) 0).
Proof.
  intros v h w s l i H. pose proof (hsum_0 v h w s _ i H) as E. rewrite map_length in E. rewrite <- E.
  clear. revert i. induction l as [|a l IH]; intro i; [reflexivity|]. cbn [y1sum hsum map]. rewrite IH. ring.
Qed.

(** ---- the error of a column *)
Definition delta_at (j : nat) (s : Z) (k : nat) : Z := if (k =? j)%nat then s else 0%Z.
Lemma rsum_delta_at : forall n j s (f : nat -> R), (j < n)%nat -> rsum n (fun k => IZR (delta_at j s k) * f k) = IZR s * f j.
Proof.
  induction n; intros j s f H; [lia|]. cbn [rsum]. unfold delta_at at 2. destruct (Nat.eqb_spec n j) as [->|Hn].
  - assert (rsum j (fun k => IZR (delta_at j s k) * f k) = rsum j (fun _ => 0)) as ->.
    { apply rsum_ext. intros k Hk. unfold delta_at. destruct (Nat.eqb_spec k j); [lia|ring]. }
    assert (forall m, rsum m (fun _ => 0) = 0) as -> by (induction m; cbn [rsum]; lra). ring.
  - rewrite IHn by lia. ring.
Qed.

(** all the conditions on a table for column c (0 or 1) with scale s *)
Definition column_ok (n : nat) (D : nat -> list term) (ks : list nat) (c : nat) (s : Z) (l : list (list term)) : bool :=
  resid_ok n D ks 0 [] l && (match Bs 0 (hd [] l) with [] => true | _ => false end) &&
  forallb (fun a => lgood a) l && (2 <=? List.length l)%nat &&
  init_ok (delta_at 0 (if (c =? 0)%nat then s else 0)) 0 l &&
  init_ok (delta_at 1 (if (c =? 1)%nat then s else 0)) 0 (map (map td1) l).


Definition comb (s : Z) (a b : R) (f g : R -> R) (x : R) : R := / IZR s * (a * f x + b * g x).
Lemma comb_derive : forall s a b f g x f' g', is_derive f x f' -> is_derive g x g' ->
  is_derive (comb s a b f g) x (/ IZR s * (a * f' + b * g')).
Proof.
  intros s a b f g x f' g' Df Dg. unfold comb. apply (is_derive_scal (fun x => a * f x + b * g x)).
  apply (is_derive_plus (fun x => a * f x) (fun x => b * g x)); [apply (is_derive_scal f); exact Df|apply (is_derive_scal g); exact Dg].
Qed.
Section Column.
Variables (n : nat) (D : nat -> list term) (ks : list nat) (c : nat) (s : Z) (l : list (list term)).
Hypothesis Hok : column_ok n D ks c s l = true.
Lemma col_parts : resid_ok n D ks 0 [] l = true /\ Bs 0 (hd [] l) = [] /\ forallb (fun a => lgood a) l = true /\ (2 <= List.length l)%nat /\
  init_ok (delta_at 0 (if (c =? 0)%nat then s else 0)) 0 l = true /\
  init_ok (delta_at 1 (if (c =? 1)%nat then s else 0)) 0 (map (map td1) l) = true.
Proof.
  pose proof Hok as H. unfold column_ok in H.
  apply andb_prop in H. destruct H as [H Hi1]. apply andb_prop in H. destruct H as [H Hi0].
  apply andb_prop in H. destruct H as [H Hlen]. apply andb_prop in H. destruct H as [H Hg].
  apply andb_prop in H. destruct H as [Hr Hb0]. apply Nat.leb_le in Hlen.
  repeat split; auto. destruct (Bs 0 (hd [] l)); [reflexivity|discriminate].
Qed.
Lemma col_resid : forall v h w x, y2sum v h w 0 l x - (w + Dsum v h D ks x) * ysum v h w 0 l x = hsum v h w 0 (resid_highs n D ks 0 [] l) x.
Proof.
  intros v h w x. destruct col_parts as (Hr & Hb & _). pose proof (resid_val v h w n D ks l 0 [] x Hr) as Hres.
  rewrite Hres; [ring| |reflexivity]. clear - Hb. destruct l as [|a l']; [reflexivity|]. cbn [hd] in Hb. rewrite Hb. reflexivity.
Qed.
Lemma col_init : forall v h w, ysum v h w 0 l 0 = (if (c =? 0)%nat then IZR s else 0) /\ y1sum v h w 0 l 0 = (if (c =? 1)%nat then IZR s else 0).
Proof.
  intros v h w. destruct col_parts as (_ & _ & _ & Hlen & Hi0 & Hi1). split.
  - rewrite ysum_hsum, (hsum_0 v h w _ l 0 Hi0). cbn [Nat.add]. rewrite (rsum_delta_at _ 0 _ (fun k => eta k 0)) by lia.
    rewrite eta_at_0. cbn [odd_dfact]. destruct (c =? 0)%nat; field.
  - rewrite (y1sum_0 v h w _ l 0 Hi1). cbn [Nat.add]. rewrite (rsum_delta_at _ 1 _ (fun k => eta k 0)) by lia.
    rewrite eta_at_0. simpl (odd_dfact 1). destruct (c =? 1)%nat; field.
Qed.
Hypothesis HDd : forall k u, In k ks -> In u (D k) -> (k <= tdeg u)%nat.
Hypothesis HDg : forall k, In k ks -> lgood (D k) = true.
Lemma col_resid_bound : forall B W v h w, 0 <= B -> (forall k, (1 <= k <= 15)%nat -> Rabs (v k) <= B) -> Rabs w <= W -> 0 < h <= 1 ->
  forall x, 0 <= x <= h -> Rabs (hsum v h w 0 (resid_highs n D ks 0 [] l) x) <= Cll B (resid_highs n D ks 0 [] l) * eta 0 W * h ^ n.
Proof.
  intros B W v h w HB Hv Hw Hh x Hx. destruct col_parts as (_ & _ & Hg & _). apply (hsum_bound v h B); auto.
  - apply resid_highs_good; auto.
  - intros r u. apply resid_highs_deg. exact HDd.
Qed.
End Column.

Theorem pair_error : forall n D ks s l0 l1, column_ok n D ks 0 s l0 = true -> column_ok n D ks 1 s l1 = true -> s <> 0%Z ->
  (forall k u, In k ks -> In u (D k) -> (k <= tdeg u)%nat) -> (forall k, In k ks -> lgood (D k) = true) ->
  forall B W, 0 <= B -> 0 <= W -> exists K, 0 <= K /\
  forall v h w, (forall k, (1 <= k <= 15)%nat -> Rabs (v k) <= B) -> Rabs w <= W -> 0 < h <= 1 ->
  forall z z1 : R -> R,
    (forall x, 0 <= x <= h -> is_derive z x (z1 x)) ->
    (forall x, 0 <= x <= h -> is_derive z1 x ((w + Dsum v h D ks x) * z x)) ->
    forall x, 0 <= x <= h ->
      Rabs (comb s (z 0) (z1 0) (y1sum v h w 0 l0) (y1sum v h w 0 l1) x - z1 x) <= K * (Rabs (z 0) + Rabs (z1 0)) * h ^ (n + 1) /\
      Rabs (comb s (z 0) (z1 0) (ysum v h w 0 l0) (ysum v h w 0 l1) x - z x) <= K * (Rabs (z 0) + Rabs (z1 0)) * h ^ (n + 2).
Proof.
  intros n D ks s l0 l1 Hk0 Hk1 Hs HDd HDg B W HB HW.
  assert (IZR s <> 0) as HsR by (apply not_0_IZR, Hs).
  set (M := W + Cll B (map D ks)).
  set (C0 := Cll B (resid_highs n D ks 0 [] l0)). set (C1 := Cll B (resid_highs n D ks 0 [] l1)).
  set (P0 := Rabs (/ IZR s) * ((C0 + C1) * eta 0 W)).
  assert (0 <= M) as HM by (pose proof (Cll_nonneg B (map D ks) HB); unfold M; lra).
  assert (0 <= C0) as HC0 by (apply Cll_nonneg, HB). assert (0 <= C1) as HC1 by (apply Cll_nonneg, HB).
  pose proof (eta0_nonneg W HW) as HE.
  assert (0 <= P0) as HP0.
  { unfold P0. apply Rmult_le_pos; [apply Rabs_pos|]. apply Rmult_le_pos; lra. }
  exists ((M * exp (M + 2) + 1) * P0). split.
  { apply Rmult_le_pos; [|exact HP0]. assert (0 <= M * exp (M + 2)) by (apply Rmult_le_pos; [exact HM|left; apply exp_pos]). lra. }
  intros v h w Hv Hw Hh z z1 Dz Dz1 x Hx. set (a := z 0). set (b := z1 0).
  set (e := fun x => comb s a b (ysum v h w 0 l0) (ysum v h w 0 l1) x - z x).
  set (e' := fun x => comb s a b (y1sum v h w 0 l0) (y1sum v h w 0 l1) x - z1 x).
  set (e'' := fun x => comb s a b (y2sum v h w 0 l0) (y2sum v h w 0 l1) x - (w + Dsum v h D ks x) * z x).
  set (Q := fun x => w + Dsum v h D ks x).
  pose proof (Rabs_pos a) as Ha. pose proof (Rabs_pos b) as Hb.
  pose proof (gronwall e e' e'' Q h M (P0 * (Rabs a + Rabs b) * h ^ n)) as G.
  assert (0 < h ^ n) as Hhn by (apply pow_lt; lra).
  destruct (G ltac:(lra) HM ltac:(apply Rmult_le_pos; [apply Rmult_le_pos; lra|lra])) with (x := x) as [G1 G2]; clear G.
  - intros t Ht. unfold e, e'. apply (is_derive_minus (comb s a b (ysum v h w 0 l0) (ysum v h w 0 l1)) z); [|apply Dz, Ht].
    apply comb_derive; apply ysum_derive.
  - intros t Ht. unfold e', e''. apply (is_derive_minus (comb s a b (y1sum v h w 0 l0) (y1sum v h w 0 l1)) z1); [|apply Dz1, Ht].
    apply comb_derive; apply y1sum_derive.
  - intros t Ht. unfold Q, M. eapply Rle_trans; [apply Rabs_triang|]. apply Rplus_le_compat; [exact Hw|].
    apply (Dsum_bound v h B); auto.
  - intros t Ht. unfold e'', e, Q, comb.
    replace (/ IZR s * (a * y2sum v h w 0 l0 t + b * y2sum v h w 0 l1 t) - (w + Dsum v h D ks t) * z t
             - (w + Dsum v h D ks t) * (/ IZR s * (a * ysum v h w 0 l0 t + b * ysum v h w 0 l1 t) - z t))
      with (/ IZR s * (a * (y2sum v h w 0 l0 t - (w + Dsum v h D ks t) * ysum v h w 0 l0 t)
                       + b * (y2sum v h w 0 l1 t - (w + Dsum v h D ks t) * ysum v h w 0 l1 t))) by ring.
    rewrite (col_resid n D ks 0 s l0 Hk0), (col_resid n D ks 1 s l1 Hk1).
    pose proof (col_resid_bound n D ks 0 s l0 Hk0 HDd HDg B W v h w HB Hv Hw Hh t Ht) as B0. fold C0 in B0.
    pose proof (col_resid_bound n D ks 1 s l1 Hk1 HDd HDg B W v h w HB Hv Hw Hh t Ht) as B1. fold C1 in B1.
    set (r0 := hsum v h w 0 (resid_highs n D ks 0 [] l0) t) in *. set (r1 := hsum v h w 0 (resid_highs n D ks 0 [] l1) t) in *.
    rewrite Rabs_mult. unfold P0. 
    replace (Rabs (/ IZR s) * ((C0 + C1) * eta 0 W) * (Rabs a + Rabs b) * h ^ n)
      with (Rabs (/ IZR s) * ((Rabs a + Rabs b) * ((C0 + C1) * eta 0 W * h ^ n))) by ring.
    apply Rmult_le_compat_l; [apply Rabs_pos|].
    eapply Rle_trans; [apply Rabs_triang|]. rewrite !Rabs_mult, Rmult_plus_distr_r.
    assert (0 <= C0 * eta 0 W * h ^ n) by (apply Rmult_le_pos; [apply Rmult_le_pos; lra|lra]).
    assert (0 <= C1 * eta 0 W * h ^ n) by (apply Rmult_le_pos; [apply Rmult_le_pos; lra|lra]).
    replace ((C0 + C1) * eta 0 W * h ^ n) with (C0 * eta 0 W * h ^ n + C1 * eta 0 W * h ^ n) by ring.
    apply Rplus_le_compat; apply Rmult_le_compat_l; lra.
  - unfold e, comb. rewrite (proj1 (col_init n D ks 0 s l0 Hk0 v h w)), (proj1 (col_init n D ks 1 s l1 Hk1 v h w)).
    cbn [Nat.eqb]. unfold a. field. exact HsR.
  - unfold e', comb. rewrite (proj2 (col_init n D ks 0 s l0 Hk0 v h w)), (proj2 (col_init n D ks 1 s l1 Hk1 v h w)).
    cbn [Nat.eqb]. unfold b. field. exact HsR.
  - exact Hx.
  - fold (e x). fold (e' x). split.
    + eapply Rle_trans; [exact G1|]. rewrite pow_add. simpl (h ^ 1). right. ring.
    + eapply Rle_trans; [exact G2|]. rewrite pow_add. simpl (h ^ 2). right. ring.
Qed.
