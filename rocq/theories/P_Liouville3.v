(** Termination of the piecewise construction, and constant coefficients. *)
From Coq Require Import String Reals Ranalysis5 ZArith QArith Qreals Bool Lia Lra.
From Coquelicot Require Import Coquelicot.
From Coq Require Import List.
From Verif Require Import Base M_LegendreData M_Sectors M_Legendre M_Poly S_Poly P_Poly P_Eval S_Legendre P_Legendre T_Legendre M_Liouville S_Liouville P_Liouville P_Liouville2.
Import ListNotations.
Open Scope R_scope.

(** ** size of an interpolant *)
Definition rowabs (n i : nat) : R := sumR (map (fun p => Rabs (Q2R (fst p))) (combine (nth i (weights (kof n)) []) (nodes (kof n)))).
Definition Lam (n : nat) : R := sumR (map (fun i => 2 ^ i * rowabs n i) (seq 0 n)).
Lemma sumR_nonneg {A} (f : A -> R) l : (forall a, In a l -> 0 <= f a) -> 0 <= sumR (map f l).
Proof. induction l as [|a l IH]; intros H; simpl; [lra|]. assert (0 <= f a) by (apply H; simpl; auto). assert (0 <= sumR (map f l)) by (apply IH; intros; apply H; simpl; auto). unfold sumR in *. lra. Qed.
Lemma rowabs_pos n i : 0 <= rowabs n i.
Proof. apply sumR_nonneg. intros; apply Rabs_pos. Qed.
Lemma Lam_pos n : 0 <= Lam n.
Proof. apply sumR_nonneg. intros i _. apply Rmult_le_pos; [apply pow_le; lra|apply rowabs_pos]. Qed.
Lemma sumR_abs_le {A} (f g : A -> R) l : (forall a, In a l -> Rabs (f a) <= g a) -> Rabs (sumR (map f l)) <= sumR (map g l).
Proof.
  induction l as [|a l IH]; intros H; [simpl; rewrite Rabs_R0; lra|].
  cbn [map]. change (Rabs (f a + sumR (map f l)) <= g a + sumR (map g l)). eapply Rle_trans; [apply Rabs_triang|].
  apply Rplus_le_compat; [apply H; simpl; auto|apply IH; intros; apply H; simpl; auto].
Qed.

Lemma integrate_bound n f a b i B : (forall x, In x (eval_points n a b) -> Rabs (f x) <= B) ->
  Rabs (integrate false n f a b i) <= rowabs n i * B.
Proof.
  intros H. rewrite integrate_sum. unfold rowabs. rewrite <- sumR_mult, map_map. apply sumR_abs_le. intros [w q] Hin. cbn [fst snd].
  rewrite Rabs_mult. apply Rmult_le_compat_l; [apply Rabs_pos|]. apply H. unfold eval_points. apply in_map_iff.
  exists q. split; [reflexivity|]. eapply in_combine_r; eauto.
Qed.
Lemma integrate_plus n f g a b i : integrate false n (fun x => f x + g x) a b i = integrate false n f a b i + integrate false n g a b i.
Proof. rewrite !integrate_sum. rewrite <- sumR_map_add. apply sumR_ext. intros; ring. Qed.

Lemma series2 n f a b t : (1 <= n <= 16)%nat -> a <> b ->
  peval (asPolynomial n f a b) t = sumR (map (fun i => 2 ^ i * integrate false n f a b i * legendre_fun i t) (seq 0 n)).
Proof.
  intros Hn N. rewrite C11_series by auto. apply sumR_ext. intros i Hi. apply in_seq in Hi. rewrite nth_coeffs by lia.
  unfold Rdiv at 2. rewrite Rpow_mult_distr, pow_inv. unfold Rdiv. field. split; apply pow_nonzero; lra.
Qed.
Lemma interp_bound n f a b t B : (1 <= n <= 16)%nat -> a <> b -> 0 <= t <= 1 ->
  (forall x, In x (eval_points n a b) -> Rabs (f x) <= B) -> Rabs (peval (asPolynomial n f a b) t) <= Lam n * B.
Proof.
  intros Hn N Ht H. rewrite series2 by auto. unfold Lam. rewrite <- sumR_mult, map_map. apply sumR_abs_le. intros i Hi. apply in_seq in Hi.
  rewrite !Rabs_mult, (Rabs_right (2 ^ i)) by (apply Rle_ge, pow_le; lra).
  pose proof (integrate_bound n f a b i B H). pose proof (legendre_bound i t ltac:(lia) Ht).
  rewrite Rmult_assoc. rewrite (Rmult_assoc (2 ^ i) (rowabs n i) B). apply Rmult_le_compat_l; [apply pow_le; lra|].
  rewrite <- (Rmult_1_r (rowabs n i * B)). apply Rmult_le_compat; auto; apply Rabs_pos.
Qed.
Lemma interp_plus n f g a b t : (1 <= n <= 16)%nat -> a <> b ->
  peval (asPolynomial n (fun x => f x + g x) a b) t = peval (asPolynomial n f a b) t + peval (asPolynomial n g a b) t.
Proof.
  intros Hn N. rewrite !series2 by auto. rewrite <- sumR_map_add. apply sumR_ext. intros i _. rewrite integrate_plus. ring.
Qed.
Lemma asPoly_ext n (f g : R -> R) a b : (forall x, In x (eval_points n a b) -> f x = g x) -> asPolynomial n f a b = asPolynomial n g a b.
Proof. intros H. unfold asPolynomial. rewrite (coeffs_ext n f g); auto. Qed.
Lemma table_tol_small n : (n <= 16)%nat -> 0 < table_tol n <= 12 / 10 ^ 16.
Proof. intros H. unfold table_tol. destruct (n <=? 12)%nat eqn:E; [lra|]. destruct (Nat.leb_spec n 16); [lra|lia]. Qed.
Lemma interp_const n v a b t : (1 <= n <= 16)%nat -> a <> b -> 0 <= t <= 1 ->
  Rabs (peval (asPolynomial n (fun _ => v) a b) t - v) <= Rabs v / 1000.
Proof.
  intros Hn N Ht. pose proof (C11_reproduce n [v] a b t Hn ltac:(simpl; lia) N Ht) as K. cbv zeta in K.
  assert (C : forall x, polyval [v] x = v) by (intros x; rewrite polyval_cons, polyval_nil; ring).
  rewrite (asPoly_ext n _ (fun _ => v)) in K by (intros; apply C). rewrite C in K.
  eapply Rle_trans; [exact K|]. unfold norm1. cbn [map]. change (sumR [Rabs v]) with (Rabs v + 0). rewrite Rplus_0_r.
  pose proof (table_tol_small n ltac:(lia)) as T. pose proof (Rabs_pos v) as Pv.
  assert (INR n <= 16) as I by (replace 16 with (INR 16) by (simpl; lra); apply le_INR; lia). pose proof (pos_INR n).
  assert (INR n * table_tol n <= 1 / 1000) by nra.
  apply Rle_trans with (1 / 1000 * Rabs v); [|lra]. apply Rmult_le_compat_r; auto.
Qed.

(** the Lebesgue-type constants of the tables *)
Definition lam_check (n : nat) : bool :=
  let rows := combine (seq 0 n) (weights (kof n)) in
  forallb (fun r => forallb zq_ok (snd r)) rows && (length (weights (kof n)) =? kof n)%nat &&
  (fold_right Z.add 0 (map (fun r => 2 ^ Z.of_nat (fst r) * fold_right Z.add 0 (map (fun q => Z.abs (zq q)) (snd r))) rows) <=? (Z.of_nat n * Z.of_nat n + 1) * SC)%Z.
Lemma lam_checks : forallb lam_check (seq 1 16) = true.
Proof. vm_compute. reflexivity. Qed.
Lemma sumR_le {A} (f g : A -> R) l : (forall a, In a l -> f a <= g a) -> sumR (map f l) <= sumR (map g l).
Proof. induction l as [|a l IH]; intros H; simpl; [lra|]. apply Rplus_le_compat; [apply H; simpl; auto|apply IH; intros; apply H; simpl; auto]. Qed.
Lemma IZR_sum l : IZR (fold_right Z.add 0%Z l) = sumR (map IZR l).
Proof. induction l as [|x l IH]; cbn [fold_right map]; [reflexivity|]. rewrite plus_IZR, IH. reflexivity. Qed.
Lemma combine_abs (r nd : list Q) : sumR (map (fun p => Rabs (Q2R (fst p))) (combine r nd)) <= sumR (map (fun q => Rabs (Q2R q)) r).
Proof.
  revert nd. induction r as [|x r IH]; intros [|y nd]; simpl; try lra.
  - apply Rplus_le_le_0_compat; [apply Rabs_pos|]. apply sumR_nonneg. intros; apply Rabs_pos.
  - apply Rplus_le_compat_l, IH.
Qed.
Lemma Lam_bound n : (1 <= n <= 16)%nat -> Lam n <= INR n * INR n + 1.
Proof.
  intros Hn. pose proof lam_checks as A. rewrite forallb_forall in A. specialize (A n ltac:(apply in_seq; lia)).
  unfold lam_check in A. apply andb_prop in A as [A B]. apply andb_prop in A as [A L]. apply Nat.eqb_eq in L.
  apply Z.leb_le, IZR_le in B. rewrite IZR_sum, mult_IZR, plus_IZR, mult_IZR, <- INR_IZR_INZ, map_map in B.
  pose proof SC_pos as SP. apply Rmult_le_reg_r with (IZR SC); auto. eapply Rle_trans; [|exact B]. clear B.
  assert (Kn : (n <= kof n)%nat) by (apply kof_in; lia).
  set (W := weights (kof n)) in *.
  assert (E : seq 0 n = map fst (combine (seq 0 n) W)).
  { clear -L Kn. assert (G : forall (l : list nat) (W : list (list Q)), (length l <= length W)%nat -> map fst (combine l W) = l).
    { induction l as [|x l IH]; intros [|w W']; cbn; intros; auto; [lia|]. f_equal. apply IH. lia. }
    symmetry. apply G. rewrite seq_length. lia. }
  unfold Lam. rewrite E at 1. rewrite map_map. fold W.
  rewrite <- sumR_mult, map_map. apply sumR_le. intros [i r] Hin. cbn [fst snd].
  rewrite mult_IZR, <- pow_IZR, IZR_sum, map_map, Rmult_assoc. apply Rmult_le_compat_l; [apply pow_le; lra|].
  assert (Hr : nth i W [] = r).
  { clear -Hin L Kn. assert (G : forall m s (W : list (list Q)) i r, In (i, r) (combine (seq s m) W) -> (s <= i)%nat /\ nth (i - s) W [] = r).
    { induction m as [|m IH]; intros s [|w W'] i' r'; cbn [seq combine In]; try tauto. intros [H|H].
      - injection H as <- <-. rewrite Nat.sub_diag. auto.
      - apply IH in H. destruct H as [H1 H2]. split; [lia|]. replace (i' - s)%nat with (S (i' - S s)) by lia. exact H2. }
    apply G in Hin. rewrite Nat.sub_0_r in Hin. tauto. }
  unfold rowabs. fold W. rewrite Hr.
  eapply Rle_trans; [apply Rmult_le_compat_r; [lra|apply combine_abs]|].
  rewrite <- sumR_mult, map_map. right. apply sumR_ext. intros q Hq.
  rewrite forallb_forall in A. specialize (A _ Hin). cbn [snd] in A. rewrite forallb_forall in A. rewrite (zq_R q) by auto.
  rewrite abs_IZR. unfold Rdiv. rewrite Rabs_mult, Rabs_inv, (Rabs_right (IZR SC)) by lra. field. lra.
Qed.
(** interpolant of a function close to its midpoint value *)
Lemma interp_near n f v w a b t : (1 <= n <= 16)%nat -> a <> b -> 0 <= t <= 1 ->
  (forall x, In x (eval_points n a b) -> Rabs (f x - v) <= w) ->
  Rabs (peval (asPolynomial n f a b) t - v) <= Rabs v / 1000 + Lam n * w.
Proof.
  intros Hn N Ht H.
  rewrite (asPoly_ext n f (fun x => v + (f x - v))) by (intros; ring).
  rewrite (interp_plus n (fun _ => v) (fun x => f x - v)) by auto.
  pose proof (interp_const n v a b t Hn N Ht). pose proof (interp_bound n (fun x => f x - v) a b t w Hn N Ht H).
  match goal with |- Rabs (?x + ?y - v) <= _ => replace (x + y - v) with ((x - v) + y) by ring end.
  eapply Rle_trans; [apply Rabs_triang|]. lra.
Qed.

(** ** the x-width of a piece *)
Lemma int01_bound A B : A <> [] -> (forall t, 0 <= t <= 1 -> Rabs (peval A t) <= B) -> Rabs (polyval (pint A) 1) <= B.
Proof.
  intros N H. pose proof (pint_RInt A 1) as I.
  pose proof (norm_RInt_le_const (polyval A) 0 1 (polyval (pint A) 1) B ltac:(lra)) as K.
  rewrite Rminus_0_r, Rmult_1_l in K. apply K; auto.
  intros x Hx. rewrite <- peval_spec by auto. now apply H.
Qed.
Lemma make_width p w a b : x_max (make_piece p w a b) - x_min (make_piece p w a b) =
  (b - a) * polyval (pint (asPolynomial 8 (fun t => sqrt (peval (asPolynomial 9 w a b) t / peval (asPolynomial 9 p a b) t)) 0 1)) 1.
Proof.
  unfold make_piece. cbv zeta. cbn [x_max x_min]. rewrite peval_spec by discriminate.
  unfold pmuls. rewrite (polyval_map_scale _ (b - a)) by auto. ring.
Qed.
Lemma asPoly_ne n f a b : (1 <= n)%nat -> asPolynomial n (f : R -> R) a b <> [].
Proof. intros H. unfold asPolynomial. destruct n; [lia|]. discriminate. Qed.

Lemma width_bound p w a b m M : a < b -> 0 < m -> 0 <= M ->
  (forall t, 0 <= t <= 1 -> m <= peval (asPolynomial 9 p a b) t) -> (forall t, 0 <= t <= 1 -> 0 <= peval (asPolynomial 9 w a b) t <= M) ->
  Rabs (x_max (make_piece p w a b) - x_min (make_piece p w a b)) <= (b - a) * (Lam 8 * sqrt (M / m)).
Proof.
  intros Hab Hm HM Hp Hw. rewrite make_width, Rabs_mult, (Rabs_right (b - a)) by lra. apply Rmult_le_compat_l; [lra|].
  apply int01_bound; [apply asPoly_ne; lia|]. intros t Ht. apply interp_bound; auto; try lia; try lra.
  intros x Hx. apply eval_points_inside in Hx; [|lra]. rewrite Rabs_right by (apply Rle_ge, sqrt_pos). apply sqrt_le_1_alt.
  specialize (Hp x ltac:(lra)). specialize (Hw x ltac:(lra)). unfold Rdiv. apply Rmult_le_compat; try lra.
  - apply Rlt_le, Rinv_0_lt_compat. lra.
  - apply Rinv_le_contravar; lra.
Qed.

(** ** continuous positive coefficients: all short enough intervals are accepted *)
Section Cont.
Variables (p w : R -> R) (lo hi : R).
Hypothesis Hlh : lo < hi.
Hypothesis Cp : forall r, lo <= r <= hi -> continuity_pt p r /\ 0 < p r.
Hypothesis Cw : forall r, lo <= r <= hi -> continuity_pt w r /\ 0 < w r.

Lemma bounds (f : R -> R) : (forall r, lo <= r <= hi -> continuity_pt f r /\ 0 < f r) ->
  exists m M, 0 < m /\ forall r, lo <= r <= hi -> m <= f r <= M.
Proof.
  intros C. destruct (continuity_ab_min f lo hi ltac:(lra) (fun r h => proj1 (C r h))) as [x [X1 X2]].
  destruct (continuity_ab_maj f lo hi ltac:(lra) (fun r h => proj1 (C r h))) as [y [Y1 Y2]].
  exists (f x), (f y). split; [now apply C|]. intros r Hr. split; auto.
Qed.
Lemma unif (f : R -> R) : (forall r, lo <= r <= hi -> continuity_pt f r /\ 0 < f r) -> forall eps, 0 < eps ->
  exists d, 0 < d /\ forall x y, lo <= x <= hi -> lo <= y <= hi -> Rabs (x - y) < d -> Rabs (f x - f y) <= eps.
Proof.
  intros C eps He. pose proof (Heine f (fun r => lo <= r <= hi) (compact_P3 lo hi) (fun r h => proj1 (C r h)) (mkposreal eps He)) as [d D].
  exists d. split; [apply cond_pos|]. intros x y Hx Hy H. apply Rlt_le. apply (D x y Hx Hy H).
Qed.

Lemma short_width : exists H C, 0 < H /\ 0 <= C /\ forall a b, lo <= a -> a < b -> b <= hi -> b - a < H ->
  x_max (make_piece p w a b) - x_min (make_piece p w a b) <= (b - a) * C.
Proof.
  destruct (bounds p Cp) as [m [M [Hm Bp]]]. destruct (bounds w Cw) as [mw [Mw [Hmw Bw]]].
  assert (HL : 0 <= Lam 9) by apply Lam_pos.
  assert (e1 : 0 < m / 4 / (Lam 9 + 1)) by (apply Rdiv_lt_0_compat; lra).
  assert (e2 : 0 < mw / 4 / (Lam 9 + 1)) by (apply Rdiv_lt_0_compat; lra).
  destruct (unif p Cp _ e1) as [d1 [D1 U1]]. destruct (unif w Cw _ e2) as [d2 [D2 U2]].
  exists (Rmin d1 d2), (Lam 8 * sqrt ((2 * Mw) / (m / 2))). split; [apply Rmin_pos; auto|].
  split; [apply Rmult_le_pos; [apply Lam_pos|apply sqrt_pos]|].
  intros a b Ha Hab Hb HH. pose proof (Rmin_l d1 d2). pose proof (Rmin_r d1 d2).
  assert (q1 : Lam 9 * (m / 4 / (Lam 9 + 1)) <= m / 4).
  { apply Rmult_le_reg_r with (Lam 9 + 1); [lra|]. replace (Lam 9 * (m / 4 / (Lam 9 + 1)) * (Lam 9 + 1)) with (Lam 9 * (m / 4)) by (field; lra). nra. }
  assert (q2 : Lam 9 * (mw / 4 / (Lam 9 + 1)) <= mw / 4).
  { apply Rmult_le_reg_r with (Lam 9 + 1); [lra|]. replace (Lam 9 * (mw / 4 / (Lam 9 + 1)) * (Lam 9 + 1)) with (Lam 9 * (mw / 4)) by (field; lra). nra. }
  eapply Rle_trans; [apply Rle_abs|].
  pose proof (Bp a ltac:(lra)) as Pa. pose proof (Bw a ltac:(lra)) as Wa.
  apply width_bound; try lra.
  - intros t Ht. pose proof (interp_near 9 p (p a) (m / 4 / (Lam 9 + 1)) a b t ltac:(lia) ltac:(lra) Ht) as K.
    assert (K' : Rabs (peval (asPolynomial 9 p a b) t - p a) <= Rabs (p a) / 1000 + Lam 9 * (m / 4 / (Lam 9 + 1))).
    { apply K. intros x Hx. apply eval_points_inside in Hx; [|lra]. apply U1; try lra. rewrite Rabs_right; lra. }
    rewrite (Rabs_right (p a)) in K' by lra. apply Rabs_le_between in K'. lra.
  - intros t Ht. pose proof (interp_near 9 w (w a) (mw / 4 / (Lam 9 + 1)) a b t ltac:(lia) ltac:(lra) Ht) as K.
    assert (K' : Rabs (peval (asPolynomial 9 w a b) t - w a) <= Rabs (w a) / 1000 + Lam 9 * (mw / 4 / (Lam 9 + 1))).
    { apply K. intros x Hx. apply eval_points_inside in Hx; [|lra]. apply U2; try lra. rewrite Rabs_right; lra. }
    rewrite (Rabs_right (w a)) in K' by lra. apply Rabs_le_between in K'. lra.
Qed.

(** a stack entry: a piece built on [a, b] inside the domain *)
Definition entry (q : piece) : Prop := exists xm, q = setXMin (make_piece p w (r_min q) (r_max q)) xm /\ lo <= r_min q /\ r_min q < r_max q /\ r_max q <= hi.
Lemma entry_make a b xm : lo <= a -> a < b -> b <= hi -> entry (setXMin (make_piece p w a b) xm).
Proof.
  intros. exists xm. destruct (setXMin_r (make_piece p w a b) xm) as [E1 E2]. rewrite E1, E2. simpl. auto.
Qed.
Lemma entry_width q xm : entry q -> x_max (setXMin q xm) - x_min (setXMin q xm) = x_max (make_piece p w (r_min q) (r_max q)) - x_min (make_piece p w (r_min q) (r_max q)).
Proof. intros [y [E _]]. rewrite setXMin_width. rewrite E at 1 2. apply setXMin_width. Qed.

Fixpoint cost (ds : list nat) : nat := match ds with [] => 1 | d :: r => (2 ^ S d - 1 + cost r)%nat end.

Lemma terminates_aux ell C : 0 < ell -> ell * C < 1 / 10 ^ 8 -> 0 <= C ->
  (forall a b, lo <= a -> a < b -> b <= hi -> b - a <= ell -> x_max (make_piece p w a b) - x_min (make_piece p w a b) <= (b - a) * C) ->
  forall fuel ds toDo xm pieces, Forall2 (fun d q => entry q /\ r_max q - r_min q <= ell * 2 ^ d) ds toDo -> (cost ds <= fuel)%nat ->
  exists l, construct_loop fuel p w toDo xm pieces = Ret l.
Proof.
  intros He HC C0 W. induction fuel as [|k IH]; intros ds toDo xm pieces F L.
  - destruct ds; simpl in L; [lia|]. assert (1 <= cost ds)%nat by (clear; induction ds; simpl; lia). lia.
  - cbn [construct_loop]. destruct toDo as [|q rest]; [eauto|].
    inversion F as [|d q' ds' rest' [Eq Wq] F' E1 E2]; subst. cbn [cost] in L.
    cbv zeta. destruct (setXMin_r q xm) as [R1 R2]. rewrite R1, R2.
    destruct (accept _ _ _) eqn:A.
    + apply (IH ds'); auto. assert (1 <= 2 ^ d)%nat by (clear; induction d; simpl; lia). simpl in L. lia.
    + destruct d as [|d].
      * exfalso. unfold accept in A. apply orb_false_iff in A as [A _]. apply Rltb_false in A.
        rewrite (entry_width q xm Eq) in A. destruct Eq as [y [_ [Ea [Eb Ec]]]]. simpl in Wq. rewrite Rmult_1_r in Wq.
        pose proof (W _ _ Ea Eb Ec Wq) as K. assert ((r_max q - r_min q) * C <= ell * C) by (apply Rmult_le_compat_r; auto). lra.
      * destruct Eq as [y [Ey [Ea [Eb Ec]]]]. apply (IH (d :: d :: ds')).
        -- constructor; [|constructor; [|auto]].
           ++ split; [apply entry_make; lra|]. match goal with |- context [setXMin ?q0 ?x0] => destruct (setXMin_r q0 x0) as [-> ->] end.
              simpl. simpl in Wq. lra.
           ++ split; [apply entry_make; lra|]. match goal with |- r_max (setXMin ?q0 ?x0) - _ <= _ => destruct (setXMin_r q0 x0) as [-> ->] end.
              simpl. simpl in Wq. lra.
        -- cbn [cost]. assert (1 <= 2 ^ d)%nat by (clear; induction d; simpl; lia). simpl in *. lia.
Qed.
End Cont.
