(** Meaning over the reals of the term arithmetic of P_Terms. *)
From Coq Require Import String Reals ZArith Lra Lia.
From Coquelicot Require Import Coquelicot.
From Coq Require Import List Bool.
From Verif Require Import Base S_Poly S_Legendre S_Formulas M_TableData M_Formulas P_Terms.
Import ListNotations.
Open Scope R_scope.

Section Eval.
Variable v : nat -> R.
Variable h : R.

Definition teval (x : R) (t : term) : R := let (c, a, b, l) := t in IZR c * x ^ a * h ^ b * vprod v l.
Definition leval (x : R) (l : list term) : R := fold_right (fun t acc => teval x t + acc) 0 l.

Lemma leval_app : forall x a b, leval x (a ++ b) = leval x a + leval x b.
Proof. intros. induction a; simpl; [ring|rewrite IHa; ring]. Qed.
Lemma teval_tsc : forall x k t, teval x (tsc k t) = IZR k * teval x t.
Proof. intros x k [c a b l]. simpl. rewrite mult_IZR. ring. Qed.
Lemma leval_tsc : forall x k l, leval x (map (tsc k) l) = IZR k * leval x l.
Proof. intros. induction l; simpl; [ring|]. rewrite IHl, teval_tsc. ring. Qed.
Lemma leval_split : forall x (f : term -> bool) l, leval x l = leval x (filter f l) + leval x (filter (fun t => negb (f t)) l).
Proof. intros. induction l as [|t l IH]; [simpl; ring|]. cbn [filter leval fold_right]. fold (leval x l). destruct (f t); cbn [negb fold_right leval]; rewrite IH; unfold leval; ring. Qed.
Lemma leval_low_high : forall x n l, leval x l = leval x (low n l) + leval x (high n l).
Proof. intros. apply leval_split. Qed.

(** variables of the tries: x0 = delta, x1 = h, x_{k+1} = v_k *)
Definition var (x : R) (i : nat) : R := match i with O => x | S O => h | S k => v k end.
Fixpoint peval (x : R) (i : nat) (q : pol) : R :=
  match q with P0 => 0 | PN c o n => IZR c + var x i * peval x i o + peval x (S i) n end.
Fixpoint pathval (x : R) (i : nat) (p : list bool) : R :=
  match p with [] => 1 | true :: p' => var x i * pathval x i p' | false :: p' => pathval x (S i) p' end.

Lemma psingle_val : forall x p c i, peval x i (psingle c p) = IZR c * pathval x i p.
Proof. induction p as [|[] p IH]; intros; simpl; rewrite ?IH; ring. Qed.
Lemma pins_val : forall x c p q i, peval x i (pins c p q) = IZR c * pathval x i p + peval x i q.
Proof.
  induction p as [|b p IH]; intros q i; destruct q as [|d o n]; cbn [pins].
  - rewrite psingle_val. simpl. ring.
  - cbn [peval pathval]. rewrite plus_IZR. ring.
  - destruct b; rewrite psingle_val; cbn [peval]; ring.
  - destruct b; cbn [peval pathval]; rewrite IH; ring.
Qed.
Lemma pzero_val : forall x q i, pzero q = true -> peval x i q = 0.
Proof.
  induction q as [|c o IHo n IHn]; intros i Hq; [reflexivity|]. cbn [pzero] in Hq.
  apply andb_prop in Hq. destruct Hq as [Hq Hn]. apply andb_prop in Hq. destruct Hq as [Hc Ho].
  apply Z.eqb_eq in Hc. subst c. cbn [peval]. rewrite IHo, IHn by assumption. ring.
Qed.
Lemma reps_true : forall x n i p, pathval x i (reps true n p) = var x i ^ n * pathval x i p.
Proof. induction n; intros; cbn [reps pathval pow]; [ring|rewrite IHn; ring]. Qed.
Lemma reps_false : forall x n i p, pathval x i (reps false n p) = pathval x (n + i) p.
Proof. induction n; intros; cbn [reps pathval]; [reflexivity|]. rewrite IHn. f_equal. lia. Qed.
Lemma vpath_val : forall x l i p, (2 <= i)%nat -> vpath i l = Some p -> pathval x i p = vprod v l.
Proof.
  induction l as [|k l IH]; intros i p Hi Hp; cbn [vpath] in Hp.
  - injection Hp as <-. reflexivity.
  - destruct (Nat.ltb_spec (S k) i); [discriminate|]. destruct (vpath (S k) l) as [p'|] eqn:E; [|discriminate].
    injection Hp as <-. rewrite reps_false.
    match goal with |- pathval x ?n _ = _ => replace n with (S k) by (destruct i; lia) end. cbn [pathval vprod]. rewrite (IH (S k) p') by (auto; lia).
    destruct k; [lia|]. reflexivity.
Qed.
Lemma tpath_val : forall x t p, tpath t = Some p -> teval x t = IZR (tcoef t) * pathval x 0 p.
Proof.
  intros x [c a b l] p Hp. cbn [tpath] in Hp. destruct (vpath 2 l) as [q|] eqn:E; [|discriminate].
  injection Hp as <-. rewrite reps_true. cbn [pathval]. rewrite reps_true. cbn [pathval].
  rewrite (vpath_val x l 2 q) by (auto; lia). cbn [teval tcoef var]. ring.
Qed.
Lemma norm_val : forall x l q r, norm l q = Some r -> peval x 0 r = leval x l + peval x 0 q.
Proof.
  induction l as [|t l IH]; intros q r Hr; cbn [norm] in Hr.
  - injection Hr as <-. simpl. ring.
  - destruct (tpath t) as [p|] eqn:E; [|discriminate]. rewrite (IH _ _ Hr), pins_val.
    cbn [leval fold_right]. rewrite (tpath_val x t p E). unfold leval. ring.
Qed.
Lemma is_zero_val : forall x l, is_zero l = true -> leval x l = 0.
Proof.
  intros x l H. unfold is_zero in H. destruct (norm l P0) as [q|] eqn:E; [|discriminate].
  pose proof (norm_val x l P0 q E) as Hn. rewrite (pzero_val x q 0 H) in Hn. simpl in Hn. lra.
Qed.

Lemma ins_val : forall k l, vprod v (ins k l) = v k * vprod v l.
Proof. induction l; cbn [ins vprod]; [reflexivity|]. destruct (k <=? a)%nat; cbn [vprod]; [reflexivity|rewrite IHl; ring]. Qed.
Lemma inss_val : forall m l, vprod v (fold_right ins l m) = vprod v m * vprod v l.
Proof. induction m; intros; cbn [fold_right vprod]; [ring|]. rewrite ins_val, IHm. ring. Qed.
Lemma tmulk_val : forall x s t, teval x (tmulk s t) = teval x s * teval x t.
Proof. intros x [c a b l] [d a' b' m]. cbn [tmulk teval]. rewrite inss_val, mult_IZR, !pow_add. ring. Qed.
Lemma lmul_val : forall x a b, leval x (lmul a b) = leval x a * leval x b.
Proof.
  intros. unfold lmul. induction a as [|s a IH]; [simpl; ring|]. cbn [flat_map]. rewrite leval_app, IH.
  assert (leval x (map (tmulk s) b) = teval x s * leval x b) as ->.
  { clear. induction b; cbn [map leval fold_right]; [ring|]. fold (leval x b). fold (leval x (map (tmulk s) b)). rewrite IHb, tmulk_val. ring. }
  cbn [leval fold_right]. fold (leval x a). ring.
Qed.

Lemma td1_val : forall t x, is_derive (fun y => teval y t) x (teval x (td1 t)).
Proof.
  intros [c a b l] x. cbn [teval td1]. auto_derive; [exact I|]. rewrite mult_IZR, <- INR_IZR_INZ.
  rewrite <- Nat.sub_1_r. ring.
Qed.
Lemma ld1_val : forall l x, is_derive (fun y => leval y l) x (leval x (map td1 l)).
Proof.
  induction l as [|t l IH]; intro x; cbn [leval fold_right map].
  - auto_derive; [exact I|reflexivity].
  - apply (is_derive_plus (fun y => teval y t) (fun y => leval y l)); [apply td1_val|apply IH].
Qed.

Lemma tdiv1_val : forall t x, tdiv1_ok t = true -> teval x t = x * teval x (tdiv1 t).
Proof.
  intros [c a b l] x H. cbn [tdiv1_ok tdiv1 teval] in *. apply orb_prop in H. destruct H as [H|H].
  - apply Nat.leb_le in H. destruct a; [lia|]. replace (S a - 1)%nat with a by lia. simpl. ring.
  - apply Z.eqb_eq in H. subst c. ring.
Qed.
Lemma ldiv1_val : forall l x, forallb tdiv1_ok l = true -> leval x l = x * leval x (map tdiv1 l).
Proof.
  induction l as [|t l IH]; intros x H; cbn [leval fold_right map]; [ring|]. cbn [forallb] in H. apply andb_prop in H.
  fold (leval x l). fold (leval x (map tdiv1 l)). rewrite (IH x (proj2 H)), (tdiv1_val t x (proj1 H)). ring.
Qed.
Lemma tB_val : forall i t x, tB_ok i t = true -> x * teval x (td1 t) - INR i * teval x t = x ^ 2 * teval x (tB i t).
Proof.
  intros i [c a b l] x H. cbn [tB_ok td1 tB teval] in *. rewrite !mult_IZR, minus_IZR, <- !INR_IZR_INZ.
  apply orb_prop in H. destruct H as [H|H].
  - apply Nat.leb_le in H. destruct a as [|[|a]]; [lia|lia|].
    replace (S (S a) - 1)%nat with (S a) by lia. replace (S (S a) - 2)%nat with a by lia. simpl pow. ring.
  - apply Z.eqb_eq in H. apply (f_equal IZR) in H. rewrite mult_IZR, minus_IZR, <- !INR_IZR_INZ in H. 
    replace (IZR c * (INR a - INR i) * x ^ (a - 2) * h ^ b * vprod v l) with 0 by (rewrite H; ring).
    destruct a as [|a].
    + simpl (INR 0) in *. simpl (x ^ (0 - 1)). simpl (x ^ 0).
      replace (x * (IZR c * 0 * 1 * h ^ b * vprod v l) - INR i * (IZR c * 1 * h ^ b * vprod v l))
        with ((IZR c * (0 - INR i)) * (h ^ b * vprod v l)) by ring. rewrite H. ring.
    + replace (S a - 1)%nat with a by lia. change (x ^ S a) with (x * x ^ a).
      replace (x * (IZR c * INR (S a) * x ^ a * h ^ b * vprod v l) - INR i * (IZR c * (x * x ^ a) * h ^ b * vprod v l))
        with ((IZR c * (INR (S a) - INR i)) * (x * x ^ a * h ^ b * vprod v l)) by ring. rewrite H. ring.
Qed.
Lemma Bs_val : forall i a x, leval x (Bs i a) = leval x (map (tB i) a).
Proof.
  intros i a x. unfold Bs. induction (map (tB i) a) as [|t l IH]; [reflexivity|]. cbn [filter].
  destruct (Z.eqb_spec (tcoef t) 0) as [E|E]; cbn [negb leval fold_right]; fold (leval x l).
  - fold (leval x (filter (fun t0 => negb (Z.eqb (tcoef t0) 0)) l)). rewrite IH.
    destruct t as [c a0 b m]. cbn [tcoef] in E. subst c. cbn [teval]. ring.
  - fold (leval x (filter (fun t0 => negb (Z.eqb (tcoef t0) 0)) l)). rewrite IH. ring.
Qed.
Lemma lB_val : forall i l x, forallb (tB_ok i) l = true ->
  x * leval x (map td1 l) - INR i * leval x l = x ^ 2 * leval x (Bs i l).
Proof.
  intros. rewrite Bs_val. induction l as [|t l IH]; [simpl; ring|]. cbn [forallb] in H. apply andb_prop in H.
  cbn [leval fold_right map]. fold (leval x l). fold (leval x (map td1 l)). fold (leval x (map (tB i) l)).
  specialize (IH (proj2 H)). pose proof (tB_val i t x (proj1 H)) as Ht. 
  replace (x ^ 2 * (teval x (tB i t) + leval x (map (tB i) l))) with (x ^ 2 * teval x (tB i t) + x ^ 2 * leval x (map (tB i) l)) by ring.
  rewrite <- IH, <- Ht. ring.
Qed.

Lemma lowhighprod_val : forall n D ks a x,
  leval x (lowprod n D ks a) + leval x (highprod n D ks a)
  = - (leval x a * fold_right (fun k acc => leval x (D k) + acc) 0 ks).
Proof.
  intros. unfold lowprod, highprod. induction ks as [|k ks IH]; [simpl; ring|]. cbn [flat_map fold_right].
  rewrite !leval_app, !leval_tsc, !lmul_val. rewrite (leval_low_high x (n - k) a) in *.
  set (A := leval x (low _ a)) in *. set (B := leval x (high _ a)) in *.
  match goal with |- ?p + ?q + (?r + ?s) = _ => replace (p + q + (r + s)) with (p + r + (q + s)) by ring end.
  rewrite IH. ring.
Qed.

(** flattening of the tables *)
Lemma coef_scaled : forall m n d l, den_ok m (Mo n d l) = true -> IZR (n * plook m d) = IZR DD * coef_val n d.
Proof.
  intros m n d l H. cbn [den_ok] in H. apply Z.eqb_eq in H. rewrite <- H. generalize (plook m d). intro q.
  unfold coef_val. destruct (Pos.eqb_spec d 1) as [->|Hd].
  - rewrite Z.mul_1_r, mult_IZR. ring.
  - rewrite !mult_IZR. field. apply not_0_IZR. discriminate.
Qed.
Lemma flat_row_val : forall m x j p r, forallb (den_ok m) r = true ->
  leval x (flat_row m j p r) = IZR DD * (x ^ j * h ^ p * row_val v r).
Proof.
  induction r as [|[n d l] r IH]; intro H; cbn [flat_row]; [simpl; ring|].
  cbn [forallb] in H. apply andb_prop in H. destruct H as [H0 H]. cbn [leval fold_right teval].
  fold (leval x (flat_row m j p r)). rewrite (IH H), (coef_scaled m n d l H0). cbn [row_val fold_right tterm_val].
  fold (row_val v r). ring.
Qed.
Lemma flat_entry_val : forall m x j e p, dens_ok_entry m e = true ->
  leval x (flat_entry m j p e) = IZR DD * (x ^ j * h ^ p * entry_val v h e).
Proof.
  unfold dens_ok_entry. induction e as [|r e IH]; intros p H; cbn [flat_entry]; [simpl; ring|].
  cbn [forallb] in H. apply andb_prop in H. destruct H as [H0 H].
  rewrite leval_app, flat_row_val, IH by assumption. cbn [entry_val pow]. ring.
Qed.
Lemma nth_ok : forall (A : Type) (P : A -> bool) l d k, P d = true -> forallb P l = true -> P (nth k l d) = true.
Proof.
  induction l as [|a l IH]; intros d k Hd H; destruct k; cbn [nth forallb] in *; auto.
  - apply andb_prop in H. apply H.
  - apply andb_prop in H. apply IH; [exact Hd|apply H].
Qed.
Lemma flat_cols_val : forall m x q cols j, dens_ok_cols m cols = true ->
  leval x (flat_cols m q j cols)
  = IZR DD * (x ^ j * fold_right (fun c acc => entry_val v h (nth q c []) + x * acc) 0 cols).
Proof.
  unfold dens_ok_cols. induction cols as [|c cols IH]; intros j H; cbn [flat_cols]; [simpl; ring|].
  cbn [forallb] in H. apply andb_prop in H. destruct H as [H0 H].
  rewrite leval_app, flat_entry_val, IH by (auto; apply nth_ok; auto). cbn [fold_right pow].
  match goal with |- ?D * (?y * 1 * ?A) + ?D * (x * ?y * ?F) = _ => change (D * (y * 1 * A) + D * (x * y * F) = D * (y * (A + x * F))) end. ring.
Qed.

Lemma horner_loop_val : forall f x i r, horner_loop f x i r = rsum i (fun j => f j * x ^ j) + r * x ^ i.
Proof. induction i; intro r; cbn [horner_loop rsum pow]; [ring|]. rewrite IHi. ring. Qed.
Lemma horner_val : forall f x n, (1 <= n)%nat -> horner f x n = rsum n (fun j => f j * x ^ j).
Proof. intros f x [|n] H; [lia|]. unfold horner. rewrite horner_loop_val. cbn [rsum]. replace (S n - 1)%nat with n by lia. ring. Qed.

Lemma rsum_ext : forall n f g, (forall k, (k < n)%nat -> f k = g k) -> rsum n f = rsum n g.
Proof. induction n; intros f g H; cbn [rsum]; [reflexivity|]. rewrite (IHn f g), (H n); [reflexivity|lia|intros; apply H; lia]. Qed.
Lemma rsum_scal : forall n c f, rsum n (fun k => c * f k) = c * rsum n f.
Proof. induction n; intros; cbn [rsum]; [ring|]. rewrite IHn. ring. Qed.
Lemma rsum_S : forall n f, rsum (S n) f = f O + rsum n (fun k => f (S k)).
Proof. induction n; intro f; [simpl; ring|]. cbn [rsum] in *. rewrite IHn. ring. Qed.
Lemma fold_horner : forall (g : list hentry -> R) x cols,
  fold_right (fun c acc => g c + x * acc) 0 cols = rsum (List.length cols) (fun j => g (nth j cols []) * x ^ j).
Proof.
  induction cols as [|c cols IH]; [reflexivity|]. cbn [fold_right List.length]. rewrite rsum_S, IH. cbn [nth pow].
  rewrite <- rsum_scal, Rmult_1_r. f_equal. apply rsum_ext. intros. ring.
Qed.
End Eval.

(** from integer terms to monomials with real coefficients *)
Definition to_mono (t : term) : monomial := let (c, a, b, l) := t in mkMono (IZR c / IZR DD) a b l.
Lemma vprod_fold : forall v l, vprod v l = fold_right (fun k acc => v k * acc) 1 l.
Proof. induction l; simpl; [reflexivity|rewrite IHl; reflexivity]. Qed.
Lemma to_mono_val : forall v h x l, IZR DD * poly_val v h x (map to_mono l) = leval v h x l.
Proof.
  induction l as [|[c a b m] l IH]; [simpl; ring|]. cbn [map poly_val fold_right leval].
  fold (poly_val v h x (map to_mono l)). fold (leval v h x l). rewrite Rmult_plus_distr_l, IH. f_equal.
  unfold mono_val, to_mono. cbn [m_coef m_delta m_h m_vs teval]. rewrite vprod_fold.
  assert (IZR DD <> 0) by (apply not_0_IZR; discriminate). field. assumption.
Qed.
Lemma to_mono_order : forall t, order (to_mono t) = tdeg t.
Proof. intros [c a b l]. reflexivity. Qed.
