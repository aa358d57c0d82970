From Coq Require Import Reals List Lia Lra.
From Coquelicot Require Import Coquelicot.
From Verif Require Import M_Sectors M_Poly S_Poly P_Eval.
Import ListNotations.
Open Scope R_scope.

Lemma sumR_app a b : sumR (a ++ b) = sumR a + sumR b.
Proof. induction a; simpl; lra. Qed.
Lemma sumR_mult l k : sumR (map (fun v => v * k) l) = sumR l * k.
Proof. induction l; simpl; lra. Qed.
Lemma sumR_map_add {A} (f g : A -> R) l : sumR (map (fun i => f i + g i) l) = sumR (map f l) + sumR (map g l).
Proof. induction l; simpl; lra. Qed.
Lemma sumR_ext {A} (f g : A -> R) l : (forall i, In i l -> f i = g i) -> sumR (map f l) = sumR (map g l).
Proof. intros H. f_equal. apply map_ext_in. auto. Qed.

Lemma polyval_cons c l x : polyval (c :: l) x = c + x * polyval l x.
Proof.
  unfold polyval. simpl length. rewrite <- cons_seq. simpl. rewrite <- seq_shift, map_map, Rmult_1_r. f_equal.
  rewrite Rmult_comm, <- sumR_mult, map_map. apply sumR_ext. intros i _. simpl. ring.
Qed.
Lemma polyval_nil x : polyval [] x = 0. Proof. reflexivity. Qed.

(** functions given by coefficients c 0 .. c (n-1) *)
Definition fval (c : nat -> R) (n : nat) (x : R) : R := sumR (map (fun i => c i * x ^ i) (seq 0 n)).
Lemma fval_S c n x : fval c (S n) x = fval c n x + c n * x ^ n.
Proof. unfold fval. rewrite seq_S, map_app, sumR_app. simpl. lra. Qed.
Lemma polyval_fval p x : polyval p x = fval (coef p) (length p) x. Proof. reflexivity. Qed.
Lemma fval_list (c : nat -> R) n x : polyval (map c (seq 0 n)) x = fval c n x.
Proof.
  unfold polyval, fval. rewrite map_length, seq_length. apply sumR_ext. intros i Hi. apply in_seq in Hi.
  rewrite nth_indep with (d' := c 0%nat) by (rewrite map_length, seq_length; lia).
  rewrite map_nth, seq_nth by lia. reflexivity.
Qed.
Lemma fval_ext c c' n x : (forall i, (i < n)%nat -> c i = c' i) -> fval c n x = fval c' n x.
Proof. intros H. apply sumR_ext. intros i Hi. apply in_seq in Hi. rewrite H by lia. reflexivity. Qed.

Lemma hloop_spec c x i r : hloop c x i r = r * x ^ i + fval c i x.
Proof. revert r; induction i as [|i IH]; intros r; simpl; [unfold fval; simpl; lra|]. rewrite IH, fval_S. ring. Qed.

Lemma peval_spec p x : p <> [] -> peval p x = polyval p x.
Proof.
  intros Hp. unfold peval. rewrite hloop_spec, polyval_fval. unfold degree.
  destruct (length p) as [|n] eqn:E; [destruct p; simpl in *; congruence|]. rewrite Nat.sub_succ, Nat.sub_0_r, fval_S. ring.
Qed.

Lemma polyval_zeros p n x : polyval (p ++ repeat 0 n) x = polyval p x.
Proof.
  induction p as [|a p IH]; simpl.
  - induction n; simpl; [reflexivity|]. rewrite polyval_cons, IHn, polyval_nil. lra.
  - rewrite !polyval_cons, IH. reflexivity.
Qed.
Lemma widen_spec n p x : polyval (widen n p) x = polyval p x.
Proof. apply polyval_zeros. Qed.
Lemma widen_length n p : (length p <= n + 1)%nat -> length (widen n p) = (n + 1)%nat.
Proof. intros. unfold widen. rewrite app_length, repeat_length. lia. Qed.

Lemma top_add_spec p q x : (length q <= length p)%nat -> polyval (top_add p q) x = polyval p x + polyval q x.
Proof.
  revert q; induction p as [|a p IH]; intros [|b q] H; simpl in *; try lia; rewrite ?polyval_cons, ?polyval_nil; try lra.
  rewrite IH by lia. lra.
Qed.
Lemma top_sub_spec p q x : (length q <= length p)%nat -> polyval (top_sub p q) x = polyval p x - polyval q x.
Proof.
  revert q; induction p as [|a p IH]; intros [|b q] H; simpl in *; try lia; rewrite ?polyval_cons, ?polyval_nil; try lra.
  rewrite IH by lia. lra.
Qed.
Lemma top_add_length p q : length (top_add p q) = length p.
Proof. revert q; induction p as [|a p IH]; intros [|b q]; simpl; auto. Qed.
Lemma top_sub_length p q : length (top_sub p q) = length p.
Proof. revert q; induction p as [|a p IH]; intros [|b q]; simpl; auto. Qed.

Lemma len_pos {A} (p : list A) : p <> [] -> (0 < length p)%nat.
Proof. destruct p; simpl; [congruence|lia]. Qed.

Lemma padd_spec p q x : p <> [] -> q <> [] -> polyval (padd p q) x = polyval p x + polyval q x /\ length (padd p q) = Nat.max (length p) (length q).
Proof.
  intros Hp Hq. apply len_pos in Hp, Hq. unfold padd, degree. split.
  - rewrite top_add_spec; rewrite ?widen_length; try lia. rewrite widen_spec. reflexivity.
  - rewrite top_add_length, widen_length; lia.
Qed.
Lemma psub_spec p q x : p <> [] -> q <> [] -> polyval (psub p q) x = polyval p x - polyval q x /\ length (psub p q) = Nat.max (length p) (length q).
Proof.
  intros Hp Hq. apply len_pos in Hp, Hq. unfold psub, degree. split.
  - rewrite top_sub_spec; rewrite ?widen_length; try lia. rewrite widen_spec. reflexivity.
  - rewrite top_sub_length, widen_length; lia.
Qed.
Lemma polyval_map_scale (f : R -> R) k p x : (forall a, f a = a * k) -> polyval (map f p) x = polyval p x * k.
Proof. intros H. induction p as [|a p IH]; simpl; [rewrite polyval_nil; lra|]. rewrite !polyval_cons, IH, H. ring. Qed.

Lemma accum_length r k v : length (accum r k v) = length r.
Proof. apply set_nth_length. Qed.
Lemma accum_spec r k v x : (k < length r)%nat -> polyval (accum r k v) x = polyval r x + v * x ^ k.
Proof.
  unfold accum, coef. revert k; induction r as [|a r IH]; intros k H; simpl in *; [lia|].
  destruct k as [|k]; simpl.
  - rewrite !polyval_cons. lra.
  - rewrite !polyval_cons. rewrite IH by lia. ring.
Qed.
Lemma inner_spec (c : nat -> R) i n r x : (i + n <= length r)%nat ->
  let r' := fold_left (fun r j => accum r (i + j) (c j)) (seq 0 n) r in
  length r' = length r /\ polyval r' x = polyval r x + x ^ i * fval c n x.
Proof.
  induction n as [|n IH]; intros H.
  - simpl. split; auto. unfold fval; simpl; lra.
  - rewrite seq_S, fold_left_app. simpl. destruct IH as [L V]; [lia|]. rewrite accum_length. split; auto.
    rewrite accum_spec, V, fval_S by lia. rewrite pow_add. ring.
Qed.
Lemma fval_scale a c n x : fval (fun j => a * c j) n x = a * fval c n x.
Proof. unfold fval. rewrite <- (Rmult_comm _ a), <- sumR_mult, map_map. apply sumR_ext. intros; ring. Qed.
Lemma pmul_spec p q x : p <> [] -> q <> [] ->
  polyval (pmul p q) x = polyval p x * polyval q x /\ length (pmul p q) = (length p + length q - 1)%nat.
Proof.
  intros Hp Hq. apply len_pos in Hp, Hq. unfold pmul, degree.
  replace (length p - 1 + 1)%nat with (length p) by lia. replace (length q - 1 + 1)%nat with (length q) by lia.
  set (N := (length p - 1 + (length q - 1) + 1)%nat).
  assert (G : forall n, (n <= length p)%nat ->
     let r := fold_left (fun r i => fold_left (fun r j => accum r (i + j) (coef p i * coef q j)) (seq 0 (length q)) r) (seq 0 n) (repeat 0 N) in
     length r = N /\ polyval r x = fval (coef p) n x * polyval q x).
  { induction n as [|n IH]; intros Hn.
    - simpl. rewrite repeat_length. split; auto. change (repeat 0 N) with ([] ++ repeat 0 N). rewrite polyval_zeros, polyval_nil. unfold fval; simpl; lra.
    - rewrite seq_S, fold_left_app. simpl. destruct IH as [L V]; [lia|].
      match type of L with length ?t = _ => set (r := t) in * end.
      destruct (inner_spec (fun j => coef p n * coef q j) n (length q) r x) as [L2 V2]; [rewrite L; unfold N; lia|].
      cbv zeta in *. split; [congruence|]. rewrite V2, V, fval_S, fval_scale, (polyval_fval q). ring. }
  destruct (G (length p) (le_n _)) as [L V]. split; [rewrite V, <- polyval_fval; reflexivity|rewrite L; unfold N; lia].
Qed.

(** *** derivatives *)
Lemma fall_mul_lin f i d : fall_mul f i d = f * fall_mul 1 i d.
Proof. revert f i; induction d as [|d IH]; intros f i; simpl; [lra|]. rewrite IH, (IH (1 * INR i)). ring. Qed.
(** d/dx of the d-th derivative of x^i *)
Lemma fall_S i d : (d < i)%nat -> fall_mul 1 i (S d) = fall_mul 1 i d * INR (i - d).
Proof.
  revert i; induction d as [|d IH]; intros i H.
  - simpl. rewrite Nat.sub_0_r. ring.
  - change (fall_mul 1 i (S (S d))) with (fall_mul (1 * INR i) (i - 1) (S d)).
    change (fall_mul 1 i (S d)) with (fall_mul (1 * INR i) (i - 1) d).
    rewrite (fall_mul_lin _ (i - 1) (S d)), (fall_mul_lin _ (i - 1) d), (IH (i - 1)%nat) by lia.
    replace (i - 1 - d)%nat with (i - S d)%nat by lia. ring.
Qed.

Lemma is_derive_mono a n x : is_derive (fun t => a * t ^ n) x (a * (INR n * x ^ Nat.pred n)).
Proof.
  apply is_derive_scal. replace (INR n * x ^ Nat.pred n) with (INR n * 1 * x ^ Nat.pred n) by ring.
  apply (is_derive_pow (fun t => t) n x 1). apply (is_derive_id (K := R_AbsRing)).
Qed.
Lemma is_derive_fval c n x : is_derive (fval c n) x (fval (fun k => c (S k) * INR (S k)) (Nat.pred n) x).
Proof.
  induction n as [|n IH].
  - apply (is_derive_ext (fun _ => 0)); [intros; unfold fval; simpl; reflexivity|]. replace (fval _ _ x) with (@zero R_NormedModule) by reflexivity. apply is_derive_const.
  - apply (is_derive_ext (fun x => fval c n x + c n * x ^ n)); [intros; symmetry; apply fval_S|].
    replace (fval (fun k => c (S k) * INR (S k)) (Nat.pred (S n)) x)
      with (fval (fun k => c (S k) * INR (S k)) (Nat.pred n) x + c n * (INR n * x ^ Nat.pred n)).
    + apply (is_derive_plus (V := R_NormedModule)); [exact IH|]. apply is_derive_mono.
    + destruct n as [|n]; simpl Nat.pred; [simpl; ring|]. rewrite fval_S. ring.
Qed.

Lemma pderiv_fval d p x : polyval (pderiv d p) x = fval (fun k => fall_mul (coef p (k + d)) (k + d) d) (length p - d) x.
Proof.
  unfold pderiv. rewrite <- fval_list. f_equal.
  replace (seq d (length p - d)) with (map (fun k => (k + d)%nat) (seq 0 (length p - d))).
  - rewrite map_map. reflexivity.
  - generalize (length p - d)%nat as m. intros m. assert (G : forall s, map (fun k => (k + d)%nat) (seq s m) = seq (s + d) m).
    { induction m as [|m IH]; intros s; simpl; auto. rewrite IH. reflexivity. } apply G.
Qed.
Lemma pderiv_step d p x : is_derive (fun y => polyval (pderiv d p) y) x (polyval (pderiv (S d) p) x).
Proof.
  rewrite pderiv_fval.
  apply (is_derive_ext (fval (fun k => fall_mul (coef p (k + d)) (k + d) d) (length p - d))); [intros; symmetry; apply pderiv_fval|].
  erewrite fval_ext; [replace (length p - S d)%nat with (Nat.pred (length p - d)) by lia; apply is_derive_fval|].
  intros k _. cbv beta. rewrite (fall_mul_lin _ _ (S d)), fall_S by lia.
  replace (S k + d)%nat with (k + S d)%nat by lia. rewrite (fall_mul_lin (coef p (k + S d)) _ d). replace (k + S d - d)%nat with (S k) by lia. ring.
Qed.
Lemma pderiv0 p x : polyval (pderiv 0 p) x = polyval p x.
Proof. rewrite pderiv_fval, Nat.sub_0_r. apply fval_ext. intros i _. simpl. rewrite Nat.add_0_r. reflexivity. Qed.

Lemma pderiv_n d p x : is_derive_n (polyval p) d x (polyval (pderiv d p) x).
Proof.
  assert (G : forall y, Derive_n (polyval p) d y = polyval (pderiv d p) y).
  { induction d as [|d IH]; intros y; [symmetry; apply pderiv0|]. simpl.
    rewrite (Derive_ext _ _ y IH). apply is_derive_unique, pderiv_step. }
  destruct d as [|d].
  - simpl. symmetry. apply pderiv0.
  - simpl. assert (G' : forall y, Derive_n (polyval p) d y = polyval (pderiv d p) y).
    { clear G. induction d as [|d IH]; intros y; [symmetry; apply pderiv0|]. simpl.
      rewrite (Derive_ext _ _ y IH). apply is_derive_unique, pderiv_step. }
    apply (is_derive_ext (polyval (pderiv d p))); [intros; symmetry; apply G'|]. apply pderiv_step.
Qed.
Lemma pderiv_at_spec d p x : pderiv_at d p x = polyval (pderiv d p) x.
Proof. unfold pderiv_at. rewrite hloop_spec, pderiv_fval. lra. Qed.
Lemma pderiv_length d p : length (pderiv d p) = (length p - d)%nat.
Proof. unfold pderiv. rewrite map_length, seq_length. reflexivity. Qed.

(** *** integrals *)
Lemma pint_val p x : polyval (pint p) x = x * fval (fun i => coef p i / INR (i + 1)) (length p) x.
Proof. unfold pint. rewrite polyval_cons, fval_list. lra. Qed.
Lemma pint_derive p x : is_derive (polyval (pint p)) x (polyval p x).
Proof.
  pose proof (is_derive_fval (coef (pint p)) (length (pint p)) x) as D.
  apply (is_derive_ext _ (polyval (pint p))) in D; [|intros; reflexivity].
  replace (polyval p x) with (fval (fun k => coef (pint p) (S k) * INR (S k)) (Nat.pred (length (pint p))) x); auto.
  unfold pint. simpl length. rewrite map_length, seq_length. simpl Nat.pred. rewrite polyval_fval. apply fval_ext.
  intros i Hi. unfold coef at 1. simpl nth. 
  rewrite nth_indep with (d' := coef p 0 / INR (0 + 1)) by (rewrite map_length, seq_length; lia).
  rewrite (map_nth (fun i => coef p i / INR (i + 1))), seq_nth by lia.
  replace (0 + i + 1)%nat with (S i) by lia. replace (0 + i)%nat with i by lia. field. apply not_0_INR. lia.
Qed.
Lemma pint_0 p : polyval (pint p) 0 = 0.
Proof. rewrite pint_val. lra. Qed.
Lemma pint_at_spec p x : pint_at p x = polyval (pint p) x.
Proof. unfold pint_at. rewrite hloop_spec, pint_val. lra. Qed.
Lemma polyval_continuous p x : continuous (polyval p) x.
Proof. apply (ex_derive_continuous (polyval p)). eexists. apply (is_derive_fval (coef p) (length p)). Qed.
Lemma pint_RInt p x : is_RInt (polyval p) 0 x (polyval (pint p) x).
Proof.
  replace (polyval (pint p) x) with (minus (polyval (pint p) x) (polyval (pint p) 0)).
  - apply (is_RInt_derive (polyval (pint p)) (polyval p)).
    + intros y _. apply pint_derive.
    + intros y _. apply polyval_continuous.
  - unfold minus, plus, opp. simpl. rewrite pint_0. lra.
Qed.
