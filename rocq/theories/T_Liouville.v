(** C46-C50: Sturm-Liouville problems. *)
From Coq Require Import String Reals Ranalysis5 ZArith Bool Lia Lra.
From Coquelicot Require Import Coquelicot.
From Coq Require Import List.
From Verif Require Import Base M_LegendreData M_Sectors M_Legendre M_Poly S_Poly P_Poly M_Core P_Core S_Core M_Liouville S_Liouville P_Liouville P_Liouville2 P_Eval S_Legendre P_Legendre T_Legendre P_Liouville3.
Import ListNotations.
Open Scope R_scope.

(** ** C11, continued *)

(** Near-best approximation: if some polynomial of degree below n is within delta of f on [a, b], the
    polynomial built from the n-point formula is within (n^2 + 2) delta of f on the whole interval, up to
    the rounding of the tables. *)
Theorem C11_near_best n f c a b delta t : (1 <= n <= 16)%nat -> (length c <= n)%nat -> a < b -> 0 <= t <= 1 ->
  (forall x, a <= x <= b -> Rabs (f x - polyval c ((x - a) / (b - a))) <= delta) ->
  Rabs (peval (asPolynomial n f a b) t - f (a + t * (b - a))) <= (INR n * INR n + 2) * delta + INR n * table_tol n * norm1 c.
Proof.
  intros Hn Hc Hab Ht H. set (g := fun x => polyval c ((x - a) / (b - a))) in *.
  assert (D0 : 0 <= delta). { eapply Rle_trans; [apply Rabs_pos|apply (H a)]; lra. }
  rewrite (asPoly_ext n f (fun x => g x + (f x - g x))) by (intros; ring).
  rewrite (interp_plus n g (fun x => f x - g x)) by (auto; lra).
  pose proof (C11_reproduce n c a b t Hn Hc ltac:(lra) Ht) as K1. cbv zeta in K1. fold g in K1.
  pose proof (interp_bound n (fun x => f x - g x) a b t delta Hn ltac:(lra) Ht) as K2.
  assert (K3 : Rabs (f (a + t * (b - a)) - g (a + t * (b - a))) <= delta) by (apply H; nra).
  specialize (K2 ltac:(intros x Hx; apply eval_points_inside in Hx; [apply H; lra|lra])).
  pose proof (Lam_bound n Hn) as L.
  assert (K4 : Lam n * delta <= (INR n * INR n + 1) * delta) by (apply Rmult_le_compat_r; auto).
  match goal with |- Rabs (?x + ?y - ?z) <= _ => replace (x + y - z) with ((x - g (a + t * (b - a))) + (y + - (z - g (a + t * (b - a))))) by ring end.
  eapply Rle_trans; [apply Rabs_triang|]. 
  eapply Rle_trans; [apply Rplus_le_compat; [exact K1|eapply Rle_trans; [apply Rabs_triang|rewrite Rabs_Ropp; apply Rplus_le_compat; [exact K2|exact K3]]]|]. lra.
Qed.
Example C11_near_best_case : Rabs (peval (asPolynomial 4 (fun x => 2 * x + x ^ 5 / 1000) 0 1) (1 / 2) - (1 + 1 / 32000)) <= 1 / 50.
Proof.
  pose proof (C11_near_best 4 (fun x => 2 * x + x ^ 5 / 1000) [0; 2] 0 1 (1 / 1000) (1 / 2) ltac:(lia) ltac:(simpl; lia) ltac:(lra) ltac:(lra)) as K.
  match type of K with ?P -> _ => assert (P) as Hp end.
  { intros x Hx. replace ((x - 0) / (1 - 0)) with x by field. rewrite !polyval_cons, polyval_nil.
    pose proof (pow_unit x 5 Hx). apply Rabs_le. lra. }
  specialize (K Hp). replace (0 + 1 / 2 * (1 - 0)) with (1 / 2) in K by field.
  replace (2 * (1 / 2) + (1 / 2) ^ 5 / 1000) with (1 + 1 / 32000) in K by field. eapply Rle_trans; [exact K|].
  unfold table_tol, norm1. cbn [Nat.leb map sumR fold_right INR]. rewrite (Rabs_right 0), (Rabs_right 2) by lra. lra.
Qed.

(** ** C46 *)

(** Whenever the construction returns, for any coefficient functions (no assumption on p and w): the pieces
    tile [rmin, rmax] and [0, xmax] end to end, every piece's coordinate map takes 0 and 1 to the ends of
    its x-interval, and its p and w are the projections of the user's p and w on its own r-interval. *)
Theorem C46_pieces fuel p w rmin rmax l : constructPiecewise fuel p w rmin rmax = Ret l ->
  exists xmax, l <> [] /\ tiles r_min r_max rmin rmax l /\ tiles x_min x_max 0 xmax l /\ xDomain l = Ret (0, xmax) /\
    forall q, In q l ->
      peval (pr2x q) 0 = x_min q /\ peval (pr2x q) 1 = x_max q /\
      pp q = asPolynomial 9 p (r_min q) (r_max q) /\ pw q = asPolynomial 9 w (r_min q) (r_max q) /\
      (rmin < rmax -> r_min q < r_max q).
Proof.
  intros H. unfold constructPiecewise in H.
  apply (construct_loop_spec p w rmin rmax) with (rc := rmin) in H; simpl; auto; try tauto.
  2:{ intros G q [[]|[<-|[]]]. auto. }
  2:{ left; discriminate. }
  destruct H as [xM [N [T1 [T2 [W O]]]]]. exists xM. repeat split; auto; try (apply (W q); auto).
  - unfold xDomain. destruct l as [|q0 l0] eqn:El; [congruence|]. rewrite <- El in *.
    assert (vget l 0 = Ret q0) as -> by (rewrite El; reflexivity). cbn [bind].
    assert (0 < length l)%nat by (rewrite El; simpl; lia).
    destruct (vget_in l (Z.of_nat (length l) - 1)) as [qn [-> En]]; [lia|]. cbn [bind].
    replace (Z.to_nat (Z.of_nat (length l) - 1)) with (Nat.pred (length l)) in En by lia.
    rewrite (tiles_last _ _ _ _ _ _ T2 En). rewrite (tiles_first _ _ _ _ _ q0 T2); [auto|now rewrite El].
Qed.

(** ** C47 *)

(** Lookup in either coordinate: only the last interval must not be reversed. *)
Theorem C47_lookup {A} (fmin fmax : A -> R) (l : list A) lo hi v :
  l <> [] -> tiles fmin fmax lo hi l -> (forall q, nth_error l (length l - 1) = Some q -> fmin q <= fmax q) ->
  lo <= v <= hi -> exists q, findPiece fmin fmax l v = Ret q /\ In q l /\ fmin q <= v <= fmax q /\ (v < fmax q \/ v = hi).
Proof. rewrite Nat.sub_1_r. apply findPiece_spec. Qed.

Lemma last_exists {A} (l : list A) : l <> [] -> exists q, nth_error l (Nat.pred (length l)) = Some q /\ In q l.
Proof.
  intros N. destruct (nth_error l (Nat.pred (length l))) as [q|] eqn:E.
  - exists q. split; auto. eapply nth_error_In; eauto.
  - apply nth_error_None in E. destruct l; simpl in *; [congruence|lia].
Qed.

(** For the pieces of every constructed transformation: r -> x finds a piece containing r for every r of
    the domain; x -> r one containing x for every x of [0, xmax] (if the last piece is not reversed). *)
Theorem C47_constructed fuel p w rmin rmax l : constructPiecewise fuel p w rmin rmax = Ret l -> rmin < rmax ->
  (forall r, rmin <= r <= rmax -> exists q, In q l /\ r_min q <= r <= r_max q /\ find_r l r = Ret q) /\
  (forall xmax x, xDomain l = Ret (0, xmax) -> (forall q, nth_error l (length l - 1) = Some q -> x_min q <= x_max q) ->
    0 <= x <= xmax -> exists q, In q l /\ x_min q <= x <= x_max q /\ find_x l x = Ret q).
Proof.
  intros H G. destruct (C46_pieces _ _ _ _ _ _ H) as [xM [N [T1 [T2 [D W]]]]]. split.
  - intros r Hr. destruct (C47_lookup r_min r_max l rmin rmax r N T1) as [q [A [B [C _]]]]; auto.
    + intros q K. apply nth_error_In in K. apply Rlt_le. now apply W.
    + exists q; auto.
  - intros xmax x D' O Hx. rewrite D in D'. injection D' as ->.
    destruct (C47_lookup x_min x_max l 0 xmax x N T2) as [q [A [B [C _]]]]; auto. exists q; auto.
Qed.

(** ** C48 *)

(** Exactly 51 tests of the loop condition, i.e. 50 halvings, whatever the map and the value. *)
Theorem C48_halvings f x :
  (forall fuel, (fuel <= 50)%nat -> x2r_loop fuel f x 0 1 = Fuel) /\
  (forall fuel, (51 <= fuel)%nat -> x2r_loop fuel f x 0 1 = Ret (x2r_impl f x)).
Proof.
  split.
  - intros fuel H. apply (x2r_loop_fuel f x fuel 0); [lia|simpl; lra].
  - assert (Mono : forall a b n lo hi, (n <= b)%nat -> x2r_loop n f x lo hi = Ret a -> x2r_loop b f x lo hi = Ret a).
    { intros a b n. revert b. induction n as [|n IH]; intros b lo hi Hb K; [discriminate|].
      destruct b as [|b]; [lia|]. cbn [x2r_loop] in *. destruct (Rltb _ (hi - lo)); auto.
      cbv zeta in *. destruct (Rltb x _); apply IH; auto; lia. }
    destruct (x2r_loop_run f x 0 51 0 1) as [l [h [K _]]]; auto; try lia; try (simpl; lra).
    intros fuel H. rewrite (Mono _ fuel 51%nat 0 1 H K). unfold x2r_impl. rewrite (Mono _ 64%nat 51%nat 0 1 ltac:(lia) K). auto.
Qed.

Lemma ivt01 f x a b : a <= b -> (forall t, a <= t <= b -> continuity_pt f t) -> f a <= x <= f b -> exists t, a <= t <= b /\ f t = x.
Proof.
  intros Hab C H. destruct (Req_dec (f a) x) as [e|ne]; [exists a; split; auto; lra|].
  destruct (Req_dec (f b) x) as [e|nb]; [exists b; split; auto; lra|].
  destruct Hab as [Hab|e]; [|subst; lra].
  destruct (IVT_interv (fun t => f t - x) a b) as [t [Ht Hz]]; auto; try lra.
  - intros t Ht. apply (continuity_pt_minus f (fct_cte x)); [auto|apply continuity_pt_const; intros u v; auto].
  - exists t. split; auto. lra.
Qed.

Theorem C48_accuracy f x : (forall t, 0 <= t <= 1 -> continuity_pt f t) -> f 0 <= x <= f 1 ->
  exists t, 0 <= t <= 1 /\ f t = x /\ Rabs (x2r_impl f x - t) <= (1/2) ^ 51.
Proof.
  intros C B. destruct (x2r_loop_run f x 0 64 0 1) as [l [h [K [W [A1 [A2 [A3 A4]]]]]]]; auto; try lia; try (simpl; lra).
  unfold x2r_impl. rewrite K.
  assert (0 < (1/2)^50) by (apply pow_lt; lra).
  destruct (ivt01 f x l h) as [t [Ht E]].
  - lra.
  - intros t Ht. apply C; lra.
  - split; [destruct A1 as [-> | A1]|destruct A2 as [-> | A2]]; lra.
  - exists t. repeat split; try lra. rewrite (pow_half_S 50). apply Rabs_le. lra.
Qed.

Lemma peval_cont p t : p <> [] -> continuity_pt (peval p) t.
Proof. intros N. apply derivable_continuous_pt. exists (pderiv_at 1 p t). apply is_derive_Reals. apply peval_derive; auto. Qed.

Lemma norm_lo (q : piece) : r_min q < r_max q -> normalizeR q (r_min q) = 0.
Proof. intros. unfold normalizeR. field. lra. Qed.
Lemma norm_hi (q : piece) : r_min q < r_max q -> normalizeR q (r_max q) = 1.
Proof. intros. unfold normalizeR. field. lra. Qed.

Lemma same_value l : forall lo hi a b, tiles r_min r_max lo hi l -> tiles x_min x_max a b l ->
  (forall q, In q l -> r_min q < r_max q) ->
  (forall q, In q l -> peval (pr2x q) 0 = x_min q /\ peval (pr2x q) 1 = x_max q) ->
  forall q q' r, In q l -> In q' l -> r_min q <= r <= r_max q -> r_min q' <= r <= r_max q' ->
  peval (pr2x q) (normalizeR q r) = peval (pr2x q') (normalizeR q' r).
Proof.
  induction l as [|h t IH]; intros lo hi a b T1 T2 O E q q' r Hq Hq' C C'; [destruct Hq|].
  destruct T1 as [A1 T1], T2 as [A2 T2].
  assert (Key : forall u, In u t -> r_min h <= r <= r_max h -> r_min u <= r <= r_max u ->
    peval (pr2x h) (normalizeR h r) = peval (pr2x u) (normalizeR u r)).
  { intros u Hu Ch Cu. destruct t as [|v t']; [destruct Hu|]. destruct T1 as [B1 T1], T2 as [B2 T2].
    pose proof (O v (or_intror (or_introl eq_refl))) as Ov. pose proof (O h (or_introl eq_refl)) as Oh.
    destruct Hu as [->|Hu].
    - assert (r = r_max h) by lra. subst r. rewrite (norm_hi h) by auto. rewrite <- B1, (norm_lo u) by auto.
      destruct (E h (or_introl eq_refl)) as [_ ->]. destruct (E u (or_intror (or_introl eq_refl))) as [-> _]. auto.
    - exfalso. destruct (tiles_le r_min r_max t' _ _ T1) as [_ K]; [intros; apply Rlt_le, O; simpl; auto|].
      specialize (K u Hu). lra. }
  destruct Hq as [->|Hq], Hq' as [->|Hq']; auto.
  - symmetry. apply Key; auto.
  - eapply IH; eauto; intros; [apply O|apply E]; simpl; auto.
Qed.

(** On a constructed transformation: for every x in the x-domain, x -> r returns a point whose distance
    to a true pre-image of x (under the transformation's own r -> x) is at most 2^-51 of the domain. *)
Theorem C48_x2r fuel p w rmin rmax l xmax x : constructPiecewise fuel p w rmin rmax = Ret l -> rmin < rmax ->
  xDomain l = Ret (0, xmax) -> (forall q, nth_error l (length l - 1) = Some q -> x_min q < x_max q) -> 0 <= x <= xmax ->
  exists r r', x2r l x = Ret r' /\ rmin <= r <= rmax /\ r2x l r = Ret x /\ Rabs (r' - r) <= (rmax - rmin) * (1/2) ^ 51.
Proof.
  intros H G D Ol Hx. pose proof (construct_loop_spec p w rmin rmax _ _ _ _ _ rmin H) as CL.
  destruct CL as [_xM [N0 [_ [_ [Wf _]]]]]; simpl; auto; try tauto.
  { intros _ q [[]|[<-|[]]]. auto. } { left; discriminate. }
  destruct (C46_pieces _ _ _ _ _ _ H) as [xM [N [T1 [T2 [D' W]]]]]. rewrite D in D'. injection D' as <-.
  destruct (C47_lookup x_min x_max l 0 xmax x N T2) as [q [Fq [Iq [Cq Sq]]]]; auto.
  { intros q K. apply Rlt_le; auto. }
  destruct (W q Iq) as [W0 [W1 [_ [_ Wo]]]]. specialize (Wo G).
  assert (Xq : x_min q < x_max q \/ x_min q = x_max q) by lra.
  assert (Xs : x_min q + normalizeX q x * (x_max q - x_min q) = x).
  { unfold normalizeX. destruct Xq as [Xq|Xq]; [field; lra|]. rewrite Xq. replace (x - x_max q) with 0 by lra. unfold Rdiv; lra. }
  destruct (C48_accuracy (peval (pr2x q)) x) as [t [Ht [Et Bt]]].
  { intros t _. apply peval_cont. apply (proj1 (Wf q Iq)). } { lra. }
  assert (Bounds : rmin <= r_min q /\ r_max q <= rmax).
  { apply (tiles_le r_min r_max l _ _ T1); auto. intros u Hu. apply Rlt_le. now apply W. }
  exists (r_min q + (r_max q - r_min q) * t), (piece_x2r q (normalizeX q x)).
  unfold x2r. unfold find_x. rewrite Fq. cbn [bind]. split; auto.
  assert (Rin : r_min q <= r_min q + (r_max q - r_min q) * t <= r_max q) by nra.
  split; [lra|]. split.
  - unfold r2x, find_r. destruct (C47_lookup r_min r_max l rmin rmax (r_min q + (r_max q - r_min q) * t) N T1) as [q' [Fq' [Iq' [Cq' _]]]]; try lra.
    { intros u K. apply nth_error_In in K. apply Rlt_le. now apply W. }
    rewrite Fq'. cbn [bind]. f_equal.
    assert (Wr : forall u, In u l -> r_min u < r_max u) by (intros u Hu; now apply W).
    assert (We : forall u, In u l -> peval (pr2x u) 0 = x_min u /\ peval (pr2x u) 1 = x_max u) by (intros u Hu; destruct (W u Hu) as [? [? _]]; auto).
    rewrite <- (same_value l rmin rmax 0 xmax T1 T2 Wr We q q' _ Iq Iq' Rin Cq').
    unfold normalizeR. replace ((r_min q + (r_max q - r_min q) * t - r_min q) / (r_max q - r_min q)) with t by (field; lra). auto.
  - unfold piece_x2r. rewrite Xs. revert Bt. generalize (x2r_impl (peval (pr2x q)) x). intros v Bt.
    replace (r_min q + (r_max q - r_min q) * v - (r_min q + (r_max q - r_min q) * t))
      with ((r_max q - r_min q) * (v - t)) by ring.
    rewrite Rabs_mult, (Rabs_right (r_max q - r_min q)) by lra.
    apply Rmult_le_compat; try lra. apply Rabs_pos.
Qed.

(** r -> x stays in the x-domain (so that x -> r and the back transformation never fail on its result)
    when every piece's coordinate map is nondecreasing, i.e. the projection of sqrt(w/p) is nonnegative. *)
Theorem C47_r2x fuel p w rmin rmax l r : constructPiecewise fuel p w rmin rmax = Ret l -> rmin < rmax ->
  (forall q, In q l -> nondecreasing_on (peval (pr2x q)) 0 1) -> rmin <= r <= rmax ->
  exists x xmax r' , r2x l r = Ret x /\ xDomain l = Ret (0, xmax) /\ 0 <= x <= xmax /\ x2r l x = Ret r' /\
    forall q, In q l -> r_min q <= r <= r_max q -> x_min q <= x <= x_max q.
Proof.
  intros H G M Hr. destruct (C46_pieces _ _ _ _ _ _ H) as [xM [N [T1 [T2 [D W]]]]].
  assert (Ox : forall q, In q l -> x_min q <= x_max q).
  { intros q Hq. destruct (W q Hq) as [W0 [W1 _]]. pose proof (M q Hq 0 1). lra. }
  destruct (C47_lookup r_min r_max l rmin rmax r N T1) as [q [Fq [Iq [Cq _]]]]; auto.
  { intros u K. apply nth_error_In in K. apply Rlt_le. now apply W. }
  assert (In01 : forall q, In q l -> r_min q <= r <= r_max q -> x_min q <= peval (pr2x q) (normalizeR q r) <= x_max q).
  { intros u Iu Cu. destruct (W u Iu) as [W0 [W1 [_ [_ Wo]]]]. specialize (Wo G).
    assert (0 <= normalizeR u r <= 1).
    { unfold normalizeR. split; [apply Rdiv_le_0_compat; lra|]. apply Rmult_le_reg_r with (r_max u - r_min u); [lra|].
      unfold Rdiv. rewrite Rmult_assoc, Rinv_l by lra. lra. }
    pose proof (M u Iu 0 (normalizeR u r)). pose proof (M u Iu (normalizeR u r) 1). lra. }
  destruct (tiles_le x_min x_max l _ _ T2 Ox) as [_ B]. pose proof (B q Iq) as Bq. pose proof (In01 q Iq Cq) as Iq'.
  destruct (C47_lookup x_min x_max l 0 xM (peval (pr2x q) (normalizeR q r)) N T2) as [q' [Fq' _]]; try lra.
  { intros u K. apply nth_error_In in K. auto. }
  assert (Wr : forall u, In u l -> r_min u < r_max u) by (intros u Hu; now apply W).
  assert (We : forall u, In u l -> peval (pr2x u) 0 = x_min u /\ peval (pr2x u) 1 = x_max u) by (intros u Hu; destruct (W u Hu) as [? [? _]]; auto).
  exists (peval (pr2x q) (normalizeR q r)), xM, (piece_x2r q' (normalizeX q' (peval (pr2x q) (normalizeR q r)))).
  unfold r2x, find_r. rewrite Fq. cbn [bind]. repeat split; auto; try lra.
  - unfold x2r, find_x. rewrite Fq'. reflexivity.
  - rewrite (same_value l rmin rmax 0 xM T1 T2 Wr We q q0 r); auto. apply In01; auto.
  - rewrite (same_value l rmin rmax 0 xM T1 T2 Wr We q q0 r); auto. apply In01; auto.
Qed.

(** ** C46: the construction returns *)

(** For continuous positive p and w on the domain the construction terminates, so that C46-C48 apply. *)
Theorem C46_terminates p w rmin rmax : rmin < rmax ->
  (forall r, rmin <= r <= rmax -> continuity_pt p r /\ 0 < p r) -> (forall r, rmin <= r <= rmax -> continuity_pt w r /\ 0 < w r) ->
  exists fuel l, constructPiecewise fuel p w rmin rmax = Ret l.
Proof.
  intros G Cp Cw. destruct (short_width p w rmin rmax G Cp Cw) as [H [C [H0 [C0 W]]]].
  set (ell := Rmin (H / 2) (1 / 10 ^ 9 / (C + 1))).
  assert (e9 : 0 < 1 / 10 ^ 9 / (C + 1)) by (apply Rdiv_lt_0_compat; lra).
  assert (Hell : 0 < ell) by (apply Rmin_pos; lra).
  assert (B1 : ell <= H / 2) by apply Rmin_l. assert (B2 : ell <= 1 / 10 ^ 9 / (C + 1)) by apply Rmin_r.
  assert (HC : ell * C < 1 / 10 ^ 8).
  { apply Rle_lt_trans with (1 / 10 ^ 9 / (C + 1) * (C + 1)).
    - apply Rmult_le_compat; lra.
    - replace (1 / 10 ^ 9 / (C + 1) * (C + 1)) with (1 / 10 ^ 9) by (field; lra). lra. }
  assert (exists d, rmax - rmin <= ell * 2 ^ d) as [d Hd].
  { destruct (Pow_x_infinity 2 ltac:(rewrite Rabs_right; lra) ((rmax - rmin) / ell)) as [d D].
    exists d. specialize (D d (le_n d)). rewrite Rabs_right in D by (apply Rle_ge, pow_le; lra).
    apply Rge_le in D. apply Rmult_le_compat_l with (r := ell) in D; [|lra].
    replace (ell * ((rmax - rmin) / ell)) with (rmax - rmin) in D by (field; lra). lra. }
  destruct (terminates_aux p w rmin rmax ell C Hell HC C0) with (fuel := cost [d]) (ds := [d]) (toDo := [make_piece p w rmin rmax]) (xm := 0) (pieces := @nil piece) as [l L].
  - intros a b Ha Hab Hb Hl. apply W; auto. lra.
  - constructor; [|constructor]. split; [|simpl; lra].
    exists 0. unfold setXMin. cbn [make_piece x_min r_min r_max]. rewrite (proj2 (Reqb_true 0 0) eq_refl). repeat split; simpl; lra.
  - auto.
  - eexists _, l. exact L.
Qed.

(** Constant coefficients (both positive): every piece of the result has a nondecreasing coordinate map
    and a positive x-width, so the hypotheses of C47_r2x and C48_x2r hold. *)
Lemma const_piece u v a b : 0 < u -> 0 < v -> a < b ->
  let q := make_piece (fun _ => u) (fun _ => v) a b in nondecreasing_on (peval (pr2x q)) 0 1 /\ x_min q < x_max q.
Proof.
  intros Hu Hv Hab q.
  set (g := fun t => sqrt (peval (asPolynomial 9 (fun _ => v) a b) t / peval (asPolynomial 9 (fun _ => u) a b) t)).
  (* the two interpolants are proportional *)
  assert (P1 : forall z t, peval (asPolynomial 9 (fun _ => z) a b) t = z * peval (asPolynomial 9 (fun _ => 1) a b) t).
  { intros z t. rewrite !series2 by (lia || lra). rewrite Rmult_comm, <- sumR_mult, map_map. apply sumR_ext. intros i _.
    assert (integrate false 9 (fun _ => z) a b i = z * integrate false 9 (fun _ => 1) a b i) as ->.
    { rewrite !integrate_sum. rewrite Rmult_comm, <- sumR_mult, map_map. apply sumR_ext. intros [? ?] _. cbn [fst snd]. ring. }
    ring. }
  assert (N1 : forall t, 0 <= t <= 1 -> 0 < peval (asPolynomial 9 (fun _ => 1) a b) t).
  { intros t Ht. pose proof (interp_const 9 1 a b t ltac:(lia) ltac:(lra) Ht) as K. rewrite Rabs_R1 in K. apply Rabs_le_between in K. lra. }
  assert (Eg : asPolynomial 8 g 0 1 = asPolynomial 8 (fun _ => sqrt (v / u)) 0 1).
  { apply asPoly_ext. intros x Hx. apply eval_points_inside in Hx; [|lra]. unfold g. f_equal. rewrite (P1 u), (P1 v).
    pose proof (N1 x ltac:(lra)). field. lra. }
  assert (S0 : 0 < sqrt (v / u)) by (apply sqrt_lt_R0, Rdiv_lt_0_compat; auto).
  assert (A0 : forall t, 0 <= t <= 1 -> 0 < peval (asPolynomial 8 g 0 1) t).
  { intros t Ht. rewrite Eg. pose proof (interp_const 8 (sqrt (v / u)) 0 1 t ltac:(lia) ltac:(lra) Ht) as K.
    rewrite Rabs_right with (r := sqrt (v / u)) in K by lra. apply Rabs_le_between in K. lra. }
  assert (D : forall t, is_derive (peval (pr2x q)) t (peval (asPolynomial 8 g 0 1) t * (b - a))).
  { intros t. unfold q, make_piece. cbv zeta. cbn [pr2x]. fold g.
    apply is_derive_ext with (fun x => polyval (pint (asPolynomial 8 g 0 1)) x * (b - a)).
    { intros x. rewrite peval_spec by discriminate. unfold pmuls. now rewrite (polyval_map_scale _ (b - a)) by auto. }
    evar_last; [apply (is_derive_multR _ (fun _ => b - a)); [apply pint_derive|apply is_derive_const]|].
    rewrite peval_spec by (apply asPoly_ne; lia). change (@zero R_NormedModule) with 0. ring. }
  assert (Mono : forall s t, 0 <= s -> s < t -> t <= 1 -> peval (pr2x q) s < peval (pr2x q) t).
  { intros s t Hs Hst Ht. destruct (MVT_gen (peval (pr2x q)) s t (fun t => peval (asPolynomial 8 g 0 1) t * (b - a))) as [c [Hc E]].
    - intros; apply D. - intros x _. apply derivable_continuous_pt. eexists. apply is_derive_Reals, D.
    - rewrite Rmin_left, Rmax_right in Hc by lra. pose proof (A0 c ltac:(lra)) as K.
      assert (0 < peval (asPolynomial 8 g 0 1) c * (b - a) * (t - s)) by (repeat apply Rmult_lt_0_compat; lra). lra. }
  split.
  - intros s t Hs Hst Ht. destruct Hst as [Hst| ->]; [apply Rlt_le, Mono; auto|lra].
  - destruct (make_piece_wf (fun _ => u) (fun _ => v) a b) as [_ [E0 [E1 _]]]. fold q in E0, E1. rewrite <- E0, <- E1. apply Mono; lra.
Qed.

Theorem C46_constant u v rmin rmax fuel l : 0 < u -> 0 < v -> rmin < rmax ->
  constructPiecewise fuel (fun _ => u) (fun _ => v) rmin rmax = Ret l ->
  forall q, In q l -> nondecreasing_on (peval (pr2x q)) 0 1 /\ x_min q < x_max q.
Proof.
  intros Hu Hv G H q Iq. destruct (C46_pieces _ _ _ _ _ _ H) as [_ [_ [_ [_ [_ W]]]]]. destruct (W q Iq) as [_ [_ [_ [_ O]]]]. specialize (O G).
  unfold constructPiecewise in H. apply (construct_loop_spec _ _ rmin rmax) with (rc := rmin) in H; simpl; auto; try tauto.
  2:{ intros _ c [[]|[<-|[]]]. auto. } 2:{ left; discriminate. }
  destruct H as [_ [_ [_ [_ [B _]]]]]. destruct (B q Iq) as [_ [xm E]].
  destruct (const_piece u v (r_min q) (r_max q) Hu Hv O) as [M S]. 
  assert (N : pr2x (make_piece (fun _ => u) (fun _ => v) (r_min q) (r_max q)) <> []) by apply make_piece_wf.
  revert M S N E. generalize (make_piece (fun _ => u) (fun _ => v) (r_min q) (r_max q)). intros q0 M S N E. split.
  - intros s t Hs Hst Ht. rewrite E, !setXMin_shift by auto. specialize (M s t Hs Hst Ht). lra.
  - assert (x_max q - x_min q = x_max q0 - x_min q0) as K by (rewrite E at 1 2; apply setXMin_width). lra.
Qed.

(** Instance: p = 2, w = 3 on [-1, 4]: the construction returns, and every r is mapped into the x-domain. *)
Example C47_instance : exists fuel l, constructPiecewise fuel (fun _ => 2) (fun _ => 3) (-1) 4 = Ret l /\
  forall r, -1 <= r <= 4 -> exists x r', r2x l r = Ret x /\ x2r l x = Ret r'.
Proof.
  destruct (C46_terminates (fun _ => 2) (fun _ => 3) (-1) 4) as [fuel [l H]]; try lra.
  { intros r _. split; [apply continuity_pt_const; intros ? ?; auto|lra]. }
  { intros r _. split; [apply continuity_pt_const; intros ? ?; auto|lra]. }
  exists fuel, l. split; auto. intros r Hr.
  destruct (C47_r2x _ _ _ _ _ _ r H ltac:(lra)) as [x [xm [r' [A [_ [_ [B _]]]]]]]; auto.
  { intros q Hq. apply (C46_constant 2 3 (-1) 4 fuel l); auto; lra. }
  exists x, r'. auto.
Qed.

(** ** C49 *)

(** The coefficient functions represented by a piece, as functions of r and of x. *)
Definition p_of (c : piece) (r : R) : R := peval (pp c) (normalizeR c r).
Definition w_of (c : piece) (r : R) : R := peval (pw c) (normalizeR c r).
Definition pw_of (c : piece) (x : R) : R := peval (ppwx c) (normalizeX c x).

(** sigma = (p w)^(-1/4), x' = sqrt(w/p) and sigma' as the code computes them. *)
Theorem C49_sigma (c : piece) r : r_min c < r_max c -> pp c <> [] -> pw c <> [] -> 0 < p_of c r -> 0 < w_of c r ->
  let sigma := fun t => sigma_at c (normalizeR c t) in
  sigma r ^ 4 * (p_of c r * w_of c r) = 1 /\ 0 < sigma r /\ is_derive sigma r (dsigma_at c (normalizeR c r)).
Proof.
  intros G Np Nw Pp Pw sigma. unfold p_of, w_of in *.
  assert (F : 0 < peval (pp c) (normalizeR c r) * peval (pw c) (normalizeR c r)) by (apply Rmult_lt_0_compat; auto).
  assert (S1 := sqrt_lt_R0 _ F). assert (S2 := sqrt_lt_R0 _ S1).
  assert (Es : sigma r = 1 / sqrt (sqrt (peval (pp c) (normalizeR c r) * peval (pw c) (normalizeR c r)))) by (apply sigma_form; auto).
  split; [|split].
  - rewrite Es. set (u := peval (pp c) (normalizeR c r) * peval (pw c) (normalizeR c r)) in *.
    replace u with (sqrt u * sqrt u) at 2 by (apply sqrt_sqrt; lra).
    rewrite <- (sqrt_sqrt (sqrt u)) at 2 3 by lra. field. lra.
  - rewrite Es. apply Rdiv_lt_0_compat; lra.
  - set (h := r_max c - r_min c).
    assert (Dp : is_derive (fun t => peval (pp c) (normalizeR c t)) r (pderiv_at 1 (pp c) (normalizeR c r) / h)).
    { apply (affine_comp (peval (pp c)) _ r (r_min c) h); [unfold h; lra|]. apply peval_derive; auto. }
    assert (Dw : is_derive (fun t => peval (pw c) (normalizeR c t)) r (pderiv_at 1 (pw c) (normalizeR c r) / h)).
    { apply (affine_comp (peval (pw c)) _ r (r_min c) h); [unfold h; lra|]. apply peval_derive; auto. }
    pose proof (is_derive_multR _ _ _ _ _ Dp Dw) as D.
    pose proof (iqroot_derive _ _ r F D) as K. cbv beta in K.
    (* near r the two forms of sigma agree *)
    assert (Loc : locally r (fun t => 0 < peval (pp c) (normalizeR c t) /\ 0 < peval (pw c) (normalizeR c t))).
    { apply (filter_and (F := locally r)).
      - apply (ex_derive_continuous (fun t => peval (pp c) (normalizeR c t)) r ltac:(eexists; exact Dp) (fun y => 0 < y)). apply open_gt; auto.
      - apply (ex_derive_continuous (fun t => peval (pw c) (normalizeR c t)) r ltac:(eexists; exact Dw) (fun y => 0 < y)). apply open_gt; auto. }
    evar_last; [eapply is_derive_ext_loc; [|exact K]|].
    + revert Loc. apply filter_imp. intros t [Q1 Q2]. symmetry. apply sigma_form; auto.
    + unfold dsigma_at. fold h. cbv zeta. rewrite sigma_form by auto. unfold h. field. repeat split; lra.
Qed.

(** Boundary data: if z(r) = sigma(r) y(X(r)) with X' = sqrt(w/p), then z2y applied to (z, z') gives (y, y'),
    for the value and for its energy derivative. *)
Theorem C49_z2y (c : piece) r (X y yE : R -> R) dy dyE :
  r_min c < r_max c -> pp c <> [] -> pw c <> [] -> 0 < p_of c r -> 0 < w_of c r ->
  is_derive X r (sqrt (w_of c r / p_of c r)) -> is_derive y (X r) dy -> is_derive yE (X r) dyE ->
  let sigma := fun t => sigma_at c (normalizeR c t) in
  exists z1 zE1, is_derive (fun t => sigma t * y (X t)) r z1 /\ is_derive (fun t => sigma t * yE (X t)) r zE1 /\
    z2y_at c (normalizeR c r) (mkY (sigma r * y (X r)) z1 (sigma r * yE (X r)) zE1) = mkY (y (X r)) dy (yE (X r)) dyE.
Proof.
  intros G Np Nw Pp Pw DX Dy DyE sigma. destruct (C49_sigma c r G Np Nw Pp Pw) as [_ [S0 DS]]. fold sigma in S0, DS.
  pose proof (is_derive_comp y X r _ _ Dy DX) as C1. pose proof (is_derive_comp yE X r _ _ DyE DX) as C2.
  eexists _, _. split; [apply is_derive_multR; [exact DS|exact C1]|]. split; [apply is_derive_multR; [exact DS|exact C2]|].
  unfold z2y_at. cbn [y0 y1 e0 e1]. cbv zeta. unfold scal; simpl; unfold mult; simpl.
  assert (0 < xdr_at c (normalizeR c r)) as X0 by (apply sqrt_lt_R0, Rdiv_lt_0_compat; auto).
  change (sqrt (w_of c r / p_of c r)) with (xdr_at c (normalizeR c r)). change (sigma_at c (normalizeR c r)) with (sigma r).
  assert (0 < sigma r) by exact S0. f_equal; field; repeat split; lra.
Qed.

(** The transformed potential.  On a piece whose p, w, p*w polynomials are consistent (pw_of = p w at the
    corresponding point, where R is the exact inverse coordinate, R' = sqrt(p/w)), every solution z of
    -(p z')' + q z = E w z is turned by z2y into a solution of -y'' + v y = E y.  The potential v is the
    computed V(x) with q/w taken at the exact R(x) instead of the bisection result (within 2^-51, C48). *)
Theorem C49_potential (c : piece) (q z z1 Rr : R -> R) E a b xa xb x :
  r_min c < r_max c -> x_min c < x_max c -> pp c <> [] -> pw c <> [] -> ppwx c <> [] ->
  (forall r, a < r < b -> 0 < p_of c r /\ 0 < w_of c r) ->
  (forall r, a < r < b -> sl_solves_at (p_of c) q (w_of c) z z1 E r) ->
  (forall t, xa < t < xb -> a < Rr t < b /\ is_derive Rr t (sqrt (p_of c (Rr t) / w_of c (Rr t)))) ->
  (forall t, xa < t < xb -> pw_of c t = p_of c (Rr t) * w_of c (Rr t)) ->
  xa < x < xb ->
  let data := fun t => z2y_at c (normalizeR c (Rr t)) (mkY (z (Rr t)) (z1 (Rr t)) 0 0) in
  let bis := piece_x2r c (normalizeX c x) in
  schroedinger_at (fun t => y0 (data t)) (fun t => y1 (data t)) (V_at q c x + (q (Rr x) / w_of c (Rr x) - q bis / w_of c bis)) E x.
Proof.
  intros G Gx Np Nw Npw P Z HR HF Hx data bis.
  set (h := r_max c - r_min c) in *. set (hx := x_max c - x_min c) in *.
  set (p1 := fun r => pderiv_at 1 (pp c) (normalizeR c r) / h). set (w1 := fun r => pderiv_at 1 (pw c) (normalizeR c r) / h).
  set (f1 := fun t => pderiv_at 1 (ppwx c) (normalizeX c t) / hx). set (f2 := fun t => pderiv_at 2 (ppwx c) (normalizeX c t) / hx / hx).
  assert (Hp : forall r, a < r < b -> 0 < p_of c r /\ is_derive (p_of c) r (p1 r)).
  { intros r Hr. split; [now apply P|]. apply (affine_comp (peval (pp c)) _ r (r_min c) h); [unfold h; lra|]. apply peval_derive; auto. }
  assert (Hw : forall r, a < r < b -> 0 < w_of c r /\ is_derive (w_of c) r (w1 r)).
  { intros r Hr. split; [now apply P|]. apply (affine_comp (peval (pw c)) _ r (r_min c) h); [unfold h; lra|]. apply peval_derive; auto. }
  assert (Near : forall t, xa < t < xb -> locally t (fun s => xa < s < xb)).
  { intros t Ht. apply (open_and (fun s => xa < s) (fun s => s < xb)); [apply open_gt|apply open_lt|auto]. }
  assert (Hf1 : forall t, xa < t < xb -> is_derive (fun s => p_of c (Rr s) * w_of c (Rr s)) t (f1 t)).
  { intros t Ht. apply is_derive_ext_loc with (pw_of c); [generalize (Near t Ht); apply filter_imp; intros s Hs; now apply HF|].
    apply (affine_comp (peval (ppwx c)) _ t (x_min c) hx); [unfold hx; lra|]. apply peval_derive; auto. }
  assert (Hf2 : forall t, xa < t < xb -> is_derive f1 t (f2 t)).
  { intros t Ht. unfold f1, f2. 
    apply is_derive_ext with (fun s => (fun u => pderiv_at 1 (ppwx c) u / hx) ((s - x_min c) / hx)); [intros; reflexivity|].
    apply (affine_comp (fun u => pderiv_at 1 (ppwx c) u / hx) (pderiv_at 2 (ppwx c) (normalizeX c t) / hx) t (x_min c) hx); [unfold hx; lra|].
    apply is_derive_ext with (fun u => scal (/ hx) (pderiv_at 1 (ppwx c) u)); [intros u; unfold scal; simpl; unfold mult; simpl; unfold Rdiv; ring|].
    evar_last; [apply (is_derive_scal (pderiv_at 1 (ppwx c))); apply peval_derive2; auto|]. unfold scal; simpl; unfold mult; simpl. unfold Rdiv, normalizeX. fold hx. unfold Rdiv. ring. }
  assert (Ey : forall t, xa < t < xb -> y0 (data t) = yy (p_of c) (w_of c) z Rr t /\ y1 (data t) = uu (p_of c) (w_of c) z z1 Rr f1 t).
  { intros t Ht. destruct (HR t Ht) as [I _]. destruct (P _ I) as [Pp Pw].
    assert (M := mpos (p_of c) (w_of c) p1 w1 Rr a b xa xb Hp Hw HR t Ht).
    assert (Es : sigma_at c (normalizeR c (Rr t)) = 1 / mm (p_of c) (w_of c) Rr t) by (apply sigma_form; auto).
    unfold data, z2y_at. cbv zeta. cbn [y0 y1]. rewrite Es. 
    assert (E0 : z (Rr t) * (1 / (1 / mm (p_of c) (w_of c) Rr t)) = yy (p_of c) (w_of c) z Rr t) by (unfold yy; field; lra).
    split; [exact E0|]. rewrite E0.
    rewrite (uu_eq (p_of c) (w_of c) z z1 p1 w1 Rr f1 a b xa xb Hp Hw HR Hf1 t Ht).
    unfold dsigma_at. cbv zeta. rewrite Es. fold h. reflexivity. }
  split.
  - cbv beta. rewrite (proj2 (Ey x Hx)). apply is_derive_ext_loc with (yy (p_of c) (w_of c) z Rr).
    + generalize (Near x Hx). apply filter_imp. intros s Hs. symmetry. now apply Ey.
    + exact (yy_d (p_of c) (w_of c) q z z1 p1 w1 Rr f1 a b xa xb E Hp Hw Z HR Hf1 x Hx).
  - cbv beta. rewrite (proj1 (Ey x Hx)). apply is_derive_ext_loc with (uu (p_of c) (w_of c) z z1 Rr f1).
    + generalize (Near x Hx). apply filter_imp. intros s Hs. symmetry. now apply Ey.
    + evar_last; [exact (uu_d (p_of c) (w_of c) q z z1 p1 w1 Rr f1 f2 a b xa xb E Hp Hw Z HR Hf1 Hf2 x Hx)|].
      f_equal. unfold V_at. cbv zeta. fold bis. rewrite <- HF by auto. unfold pw_of, f1, f2. fold hx. unfold w_of, pw_of.
      replace (pderiv_at 2 (ppwx c) (normalizeX c x) / (hx * hx)) with (pderiv_at 2 (ppwx c) (normalizeX c x) / hx / hx) by (field; unfold hx; lra).
      ring.
Qed.

(** Instance of C49_potential: p = w = 1 + r on (0,1), where x = r, q = 1/(1+r), z = 1 + r, E = 0:
    -((1+r))' + (1/(1+r))(1+r) = 0. *)
Definition c49_piece : piece := mkPiece 0 1 0 1 [0; 1] [1; 1] [1; 1] [1; 2; 1].
Example C49_instance x : 0 < x < 1 ->
  let data := fun t => z2y_at c49_piece (normalizeR c49_piece t) (mkY (1 + t) 1 0 0) in
  let q := fun r => / (1 + r) in
  let bis := piece_x2r c49_piece (normalizeX c49_piece x) in
  y0 (data x) = (1 + x) * sqrt (1 + x) /\
  schroedinger_at (fun t => y0 (data t)) (fun t => y1 (data t))
    (V_at q c49_piece x + (q x / w_of c49_piece x - q bis / w_of c49_piece bis)) 0 x.
Proof.
  intros Hx data q bis.
  assert (Ep : forall r, p_of c49_piece r = 1 + r) by (intros r; unfold p_of, normalizeR, c49_piece; cbn; field).
  assert (Ew : forall r, w_of c49_piece r = 1 + r) by (intros r; unfold w_of, normalizeR, c49_piece; cbn; field).
  split.
  - unfold data, z2y_at. cbv zeta. cbn [y0].
    assert (S : 0 < sqrt (1 + x)) by (apply sqrt_lt_R0; lra).
    rewrite sigma_form; fold (p_of c49_piece x); fold (w_of c49_piece x); rewrite ?Ep, ?Ew; try lra.
    rewrite (sqrt_square (1 + x)) by lra. field. lra.
  - apply (C49_potential c49_piece q (fun r => 1 + r) (fun _ => 1) (fun t => t) 0 0 1 0 1 x); auto; try (cbn; lra); try discriminate.
    + intros r Hr. rewrite Ep, Ew. lra.
    + intros r Hr. split; [auto_derive; auto; lra|].
      apply is_derive_ext with (fun t => (1 + t) * 1); [intros t; rewrite Ep; auto|].
      unfold q. auto_derive; auto. rewrite Ew. field. lra.
    + intros t Ht. split; [lra|]. rewrite Ep, Ew. replace ((1 + t) / (1 + t)) with 1 by (field; lra). rewrite sqrt_1.
      auto_derive; auto.
    + intros t Ht. rewrite Ep, Ew. unfold pw_of, normalizeX, c49_piece; cbn. field.
Qed.

(** The product p w as a function of x: the stored polynomial approximates p(r(x)) w(r(x)), with r(x) the
    computed inverse map of the piece, nearly as well as the best polynomial of degree 10 does. *)
Lemma x2r_loop_shift f d x : forall fuel low high, x2r_loop fuel (fun t => f t + d) (x + d) low high = x2r_loop fuel f x low high.
Proof.
  induction fuel as [|k IH]; intros low high; cbn [x2r_loop]; auto. destruct (Rltb _ (high - low)); auto. cbv zeta.
  assert (Rltb (x + d) (f ((high + low) / 2) + d) = Rltb x (f ((high + low) / 2))) as ->.
  { destruct (Rltb x (f ((high + low) / 2))) eqn:E; [apply Rltb_true in E; apply Rltb_true; lra|apply Rltb_false in E; apply Rltb_false; lra]. }
  destruct (Rltb x _); apply IH.
Qed.
Lemma x2r_loop_ext f g x : (forall t, f t = g t) -> forall fuel low high, x2r_loop fuel f x low high = x2r_loop fuel g x low high.
Proof.
  intros E. induction fuel as [|k IH]; intros low high; cbn [x2r_loop]; auto. destruct (Rltb _ (high - low)); auto. cbv zeta.
  rewrite E. destruct (Rltb x _); apply IH.
Qed.
Lemma x2r_impl_range f x : 0 <= x2r_impl f x <= 1.
Proof.
  destruct (x2r_loop_run f x 0 64 0 1) as [l [h [K [W [A1 [A2 [A3 A4]]]]]]]; auto; try lia; try (simpl; lra).
  unfold x2r_impl. rewrite K. assert (0 < (1/2)^50) by (apply pow_lt; lra). lra.
Qed.
Lemma x2r_impl_shift f g d x : (forall t, f t = g t + d) -> x2r_impl f (x + d) = x2r_impl g x.
Proof.
  intros H. unfold x2r_impl. generalize 64%nat. intros n. rewrite (x2r_loop_ext f (fun t => g t + d) (x + d) H), x2r_loop_shift. reflexivity.
Qed.

Lemma make_piece_product p w a b : ppwx (make_piece p w a b) = asPolynomial 11 (fun xv => peval (pp (make_piece p w a b)) (x2r_impl (peval (pr2x (make_piece p w a b))) xv) *
  peval (pw (make_piece p w a b)) (x2r_impl (peval (pr2x (make_piece p w a b))) xv)) 0 (x_max (make_piece p w a b)).
Proof. reflexivity. Qed.

Theorem C49_product fuel p w rmin rmax l q c delta x : constructPiecewise fuel p w rmin rmax = Ret l -> rmin < rmax ->
  In q l -> x_min q < x_max q -> (length c <= 11)%nat ->
  let f := fun x => let r := piece_x2r q (normalizeX q x) in p_of q r * w_of q r in
  (forall x, x_min q <= x <= x_max q -> Rabs (f x - polyval c (normalizeX q x)) <= delta) -> x_min q <= x <= x_max q ->
  Rabs (pw_of q x - f x) <= 123 * delta + 11 * (17 / 10 ^ 18) * norm1 c.
Proof.
  intros H G Iq Hx Hc f Hf Ix. destruct (C46_pieces _ _ _ _ _ _ H) as [_ [_ [_ [_ [_ W]]]]]. destruct (W q Iq) as [_ [_ [_ [_ O]]]]. specialize (O G). clear W.
  unfold constructPiecewise in H. apply (construct_loop_spec _ _ rmin rmax) with (rc := rmin) in H; simpl; auto; try tauto.
  2:{ intros _ k [[]|[<-|[]]]. auto. } 2:{ left; discriminate. }
  destruct H as [_ [_ [_ [_ [B _]]]]]. destruct (B q Iq) as [_ [xm E]].
  assert (N : pr2x (make_piece p w (r_min q) (r_max q)) <> []) by apply make_piece_wf.
  assert (X0 : x_min (make_piece p w (r_min q) (r_max q)) = 0) by reflexivity.
  pose proof (make_piece_product p w (r_min q) (r_max q)) as Eg.
  revert E N X0 Eg. generalize (make_piece p w (r_min q) (r_max q)) as q0. intros q0 E N X0 Eg.
  assert (Wd : x_max q - x_min q = x_max q0) by (rewrite E at 1 2; rewrite setXMin_width, X0; lra).
  assert (Xm : x_min q = xm) by (rewrite E; apply setXMin_xmin).
  assert (Epw : ppwx q = ppwx q0 /\ pp q = pp q0 /\ pw q = pw q0).
  { rewrite E. unfold setXMin. destruct (Reqb xm (x_min q0)); cbn [ppwx pp pw]; auto. }
  destruct Epw as (E1 & E2 & E3).
  assert (Fx : forall t, f (x_min q + t * x_max q0) = peval (pp q0) (x2r_impl (peval (pr2x q0)) (t * x_max q0)) * peval (pw q0) (x2r_impl (peval (pr2x q0)) (t * x_max q0))).
  { intros t. unfold f, p_of, w_of. cbv zeta.
    replace (normalizeX q (x_min q + t * x_max q0)) with t by (unfold normalizeX; rewrite Wd; field; lra).
    assert (normalizeR q (piece_x2r q t) = x2r_impl (peval (pr2x q0)) (t * x_max q0)) as ->.
    { assert (Z : piece_x2r q t = r_min q + (r_max q - r_min q) * x2r_impl (peval (pr2x q)) (x_min q + t * (x_max q - x_min q))) by reflexivity.
      rewrite Z. clear Z. replace (x_min q + t * (x_max q - x_min q)) with (t * x_max q0 + xm) by (rewrite Wd, Xm; ring).
      rewrite (x2r_impl_shift (peval (pr2x q)) (peval (pr2x q0)) xm).
      - generalize (x2r_impl (peval (pr2x q0)) (t * x_max q0)). intros v0. unfold normalizeR. field. lra.
      - intros s. rewrite E, setXMin_shift by auto. rewrite X0. ring. }
    rewrite E2, E3. reflexivity. }
  set (t := normalizeX q x). assert (Ht : 0 <= t <= 1).
  { unfold t, normalizeX. rewrite Wd. split; [apply Rdiv_le_0_compat; lra|]. apply Rmult_le_reg_r with (x_max q0); [lra|]. unfold Rdiv. rewrite Rmult_assoc, Rinv_l by lra. lra. }
  assert (Ex : x = x_min q + t * x_max q0) by (unfold t, normalizeX; rewrite Wd; field; lra).
  unfold pw_of. fold t. rewrite E1.
  assert (Fg : forall t, f (x_min q + t * x_max q0) = (fun xv => peval (pp q0) (x2r_impl (peval (pr2x q0)) xv) * peval (pw q0) (x2r_impl (peval (pr2x q0)) xv)) (t * x_max q0)).
  { intros t'. rewrite Fx. reflexivity. }
  clear Fx. clearbody f. revert Eg Fg. generalize (fun xv => peval (pp q0) (x2r_impl (peval (pr2x q0)) xv) * peval (pw q0) (x2r_impl (peval (pr2x q0)) xv)). intros g Eg Fg.
  rewrite Eg. assert (Efg : f x = g (0 + t * (x_max q0 - 0))). { rewrite Ex, Fg. f_equal. ring. } rewrite Efg.
  pose proof (C11_near_best 11 g c 0 (x_max q0) delta t ltac:(lia) Hc ltac:(lra) Ht) as K.
  assert (I11 : INR 11 = 11) by (rewrite INR_IZR_INZ; reflexivity).
  assert (T11 : table_tol 11 = 17 / 10 ^ 18) by reflexivity.
  rewrite T11, !I11 in K. replace (11 * 11 + 2) with 123 in K by lra. apply K.
  intros y Hy. rewrite !Rminus_0_r. specialize (Hf (x_min q + y / x_max q0 * x_max q0)). rewrite Fg in Hf.
  replace (y / x_max q0 * x_max q0) with y in Hf by (field; lra).
  replace (normalizeX q (x_min q + y)) with (y / x_max q0) in Hf by (unfold normalizeX; rewrite Wd; field; lra). apply Hf. lra.
Qed.
(** Constant coefficients p = u, w = v: the stored product is u v. *)
Lemma constant9 z a b t : a < b -> 0 < z -> 0 <= t <= 1 -> Rabs (peval (asPolynomial 9 (fun _ => z) a b) t - z) <= z / 10 ^ 15.
Proof.
  intros G Hz Ht. pose proof (C11_reproduce 9 [z] a b t ltac:(lia) ltac:(simpl; lia) ltac:(lra) Ht) as K. cbv zeta in K.
  assert (C : forall x, polyval [z] x = z) by (intros y; rewrite polyval_cons, polyval_nil; ring).
  rewrite (asPoly_ext 9 _ (fun _ => z)) in K by (intros; apply C). rewrite C in K. eapply Rle_trans; [exact K|].
  assert (N1 : norm1 [z] = z) by (unfold norm1; cbn [map sumR fold_right]; rewrite Rabs_right by lra; ring).
  assert (T9 : table_tol 9 = 17 / 10 ^ 18) by reflexivity.
  assert (I9 : INR 9 = 9) by (rewrite INR_IZR_INZ; reflexivity).
  rewrite N1, T9, I9. lra.
Qed.

Lemma piece_x2r_eq q s : piece_x2r q s = r_min q + (r_max q - r_min q) * x2r_impl (peval (pr2x q)) (x_min q + s * (x_max q - x_min q)).
Proof. reflexivity. Qed.
Lemma normalizeR_line q v : r_min q < r_max q -> normalizeR q (r_min q + (r_max q - r_min q) * v) = v.
Proof. intros. unfold normalizeR. field. lra. Qed.
Lemma norm_x2r q s : r_min q < r_max q -> 0 <= normalizeR q (piece_x2r q s) <= 1.
Proof. intros O. rewrite piece_x2r_eq, normalizeR_line by auto. apply x2r_impl_range. Qed.

Lemma product_close u v P Q : 0 < u -> 0 < v -> Rabs (P - u) <= u / 10 ^ 15 -> Rabs (Q - v) <= v / 10 ^ 15 -> Rabs (P * Q - u * v) <= u * v * (3 / 10 ^ 15).
Proof.
  intros Hu Hv A B. assert (Uv : 0 < u * v) by (apply Rmult_lt_0_compat; auto).
  replace (P * Q - u * v) with ((P - u) * (Q - v) + u * (Q - v) + v * (P - u)) by ring.
  eapply Rle_trans; [apply Rabs_triang|]. eapply Rle_trans; [apply Rplus_le_compat_r, Rabs_triang|]. rewrite !Rabs_mult, (Rabs_right u), (Rabs_right v) by lra.
  assert (Rabs (P - u) * Rabs (Q - v) <= u / 10 ^ 15 * (v / 10 ^ 15)) by (apply Rmult_le_compat; auto using Rabs_pos).
  assert (u * Rabs (Q - v) <= u * (v / 10 ^ 15)) by (apply Rmult_le_compat_l; lra).
  assert (v * Rabs (P - u) <= v * (u / 10 ^ 15)) by (apply Rmult_le_compat_l; lra).
  apply Rle_trans with (u * v * (1 / 10 ^ 30 + 2 / 10 ^ 15)); [lra|]. apply Rmult_le_compat_l; lra.
Qed.

Theorem C49_constant_product u v rmin rmax fuel l q x : 0 < u -> 0 < v -> rmin < rmax ->
  constructPiecewise fuel (fun _ => u) (fun _ => v) rmin rmax = Ret l -> In q l -> x_min q <= x <= x_max q ->
  Rabs (pw_of q x - u * v) <= u * v / 10 ^ 12.
Proof.
  intros Hu Hv G H Iq Ix. destruct (C46_constant u v rmin rmax fuel l Hu Hv G H q Iq) as [_ Hx].
  destruct (C46_pieces _ _ _ _ _ _ H) as [_ [_ [_ [_ [_ W]]]]]. destruct (W q Iq) as [_ [_ [Ep [Ew O]]]]. specialize (O G). clear W.
  assert (Uv : 0 < u * v) by (apply Rmult_lt_0_compat; auto).
  assert (F : forall y, Rabs (p_of q (piece_x2r q (normalizeX q y)) * w_of q (piece_x2r q (normalizeX q y)) - u * v) <= u * v * (3 / 10 ^ 15)).
  { intros y. unfold p_of, w_of. rewrite Ep, Ew. pose proof (norm_x2r q (normalizeX q y) O) as Ht.
    apply product_close; auto; apply constant9; auto. }
  assert (C : forall x, polyval [u * v] x = u * v) by (intros y; rewrite polyval_cons, polyval_nil; ring).
  assert (K : Rabs (pw_of q x - p_of q (piece_x2r q (normalizeX q x)) * w_of q (piece_x2r q (normalizeX q x))) <= 123 * (u * v * (3 / 10 ^ 15)) + 11 * (17 / 10 ^ 18) * norm1 [u * v]).
  { apply (C49_product _ _ _ _ _ _ q [u * v] (u * v * (3 / 10 ^ 15)) x H G Iq Hx); [simpl; lia| |auto]. intros y _. rewrite C. apply F. }
  specialize (F x). assert (N1 : norm1 [u * v] = u * v) by (unfold norm1; cbn [map sumR fold_right]; rewrite Rabs_right by lra; ring). rewrite N1 in K.
  revert K F. generalize (p_of q (piece_x2r q (normalizeX q x)) * w_of q (piece_x2r q (normalizeX q x))), (pw_of q x). intros fx g K F.
  apply Rabs_le_between in K. apply Rabs_le_between in F. apply Rabs_le. lra.
Qed.

(** The boundary data handed to the Schroedinger solver: the data given at rmin transformed at the left end
    of the first piece, the data given at rmax transformed at the right end of the last one. *)
Theorem C49_ends fuel p w rmin rmax l {A} (solver : Y -> Y -> res A) left right :
  constructPiecewise fuel p w rmin rmax = Ret l -> rmin < rmax ->
  exists q q', In q l /\ In q' l /\ r_min q = rmin /\ r_max q' = rmax /\
    sl_solve l rmin rmax solver left right = solver (z2y_at q 0 left) (z2y_at q' 1 right).
Proof.
  intros H G. destruct (C46_pieces _ _ _ _ _ _ H) as [xM [N [T1 [T2 [D W]]]]].
  assert (O : forall q, In q l -> r_min q < r_max q) by (intros q Iq; apply (W q Iq); auto).
  destruct (tiles_le r_min r_max l rmin rmax T1 (fun q Iq => Rlt_le _ _ (O q Iq))) as [_ B].
  assert (L : forall q, nth_error l (length l - 1) = Some q -> r_min q <= r_max q) by (intros q K; apply nth_error_In in K; apply Rlt_le; auto).
  destruct (C47_lookup r_min r_max l rmin rmax rmin N T1 L ltac:(lra)) as (q & F & Iq & R1 & _).
  destruct (C47_lookup r_min r_max l rmin rmax rmax N T1 L ltac:(lra)) as (q' & F' & Iq' & R1' & _).
  assert (E : r_min q = rmin) by (destruct (B q Iq); lra). assert (E' : r_max q' = rmax) by (destruct (B q' Iq'); lra).
  exists q, q'. repeat (split; auto). unfold sl_solve, sl_boundary, z2y. change (find_r l) with (findPiece r_min r_max l). rewrite F, F'. cbn [bind fst snd].
  pose proof (O q Iq). pose proof (O q' Iq').
  replace (normalizeR q rmin) with 0 by (unfold normalizeR; rewrite E; field; lra).
  replace (normalizeR q' rmax) with 1 by (unfold normalizeR; rewrite E'; field; rewrite <- E'; lra). reflexivity.
Qed.
(** Case: p = 2, w = 3 on [-1, 4]; Dirichlet data at the left end, any solver. *)
Example C49_ends_case : exists fuel l, constructPiecewise fuel (fun _ => 2) (fun _ => 3) (-1) 4 = Ret l /\
  (forall q x, In q l -> x_min q <= x <= x_max q -> Rabs (pw_of q x - 6) <= 6 / 10 ^ 12) /\
  exists a b, sl_solve l (-1) 4 (fun a b => Ret (a, b)) (mkY 0 1 0 0) (mkY 1 0 0 0) = Ret (a, b).
Proof.
  destruct (C46_terminates (fun _ => 2) (fun _ => 3) (-1) 4) as [fuel [l H]]; try lra.
  { intros r _. split; [apply continuity_pt_const; intros ? ?; auto|lra]. }
  { intros r _. split; [apply continuity_pt_const; intros ? ?; auto|lra]. }
  exists fuel, l. split; [exact H|]. split.
  - intros q x Iq Ix. replace 6 with (2 * 3) by ring. apply (C49_constant_product 2 3 (-1) 4 fuel l q x); auto; lra.
  - destruct (C49_ends fuel _ _ (-1) 4 l (fun a b => Ret (a, b)) (mkY 0 1 0 0) (mkY 1 0 0 0) H ltac:(lra)) as (q & q' & _ & _ & _ & _ & E).
    rewrite E. eauto.
Qed.
(** Boundary data: Dirichlet data stays Dirichlet, the transformation is linear and injective, so nonzero
    boundary conditions stay nonzero. *)
Theorem C49_boundary (c : piece) nr (z z' : Y) k : 0 < peval (pp c) nr -> 0 < peval (pw c) nr ->
  (y0 (z2y_at c nr z) = 0 <-> y0 z = 0) /\
  (nonzero z -> nonzero (z2y_at c nr z)) /\
  z2y_at c nr (yadd z z') = yadd (z2y_at c nr z) (z2y_at c nr z') /\
  z2y_at c nr (yscale k z) = yscale k (z2y_at c nr z).
Proof.
  intros P W.
  assert (F : 0 < peval (pp c) nr * peval (pw c) nr) by (apply Rmult_lt_0_compat; auto).
  assert (S0 : 0 < sigma_at c nr).
  { rewrite sigma_form by auto. apply Rdiv_lt_0_compat; [lra|]. do 2 apply sqrt_lt_R0. auto. }
  assert (X0 : 0 < xdr_at c nr) by (apply sqrt_lt_R0, Rdiv_lt_0_compat; auto).
  assert (I1 : 0 < 1 / sigma_at c nr) by (apply Rdiv_lt_0_compat; lra).
  assert (I2 : 0 < 1 / (sigma_at c nr * xdr_at c nr)) by (apply Rdiv_lt_0_compat; [lra|apply Rmult_lt_0_compat; auto]).
  unfold z2y_at. cbv zeta. revert I1 I2. generalize (1 / sigma_at c nr), (1 / (sigma_at c nr * xdr_at c nr)), (dsigma_at c nr).
  intros a b d I1 I2. split; [|split; [|split]].
  - cbn [y0]. split; [intros K; apply Rmult_integral in K; lra|intros ->; lra].
  - unfold nonzero. cbn [y0 y1]. intros N. destruct (Req_dec (y0 z) 0) as [Z0|Z0]; [right|left; apply Rmult_integral_contrapositive; lra].
    rewrite Z0. destruct N as [N|N]; [lra|]. replace (y1 z - d * (0 * a)) with (y1 z) by ring.
    intros K. apply Rmult_integral in K. lra.
  - unfold yadd. cbn [y0 y1 e0 e1]. f_equal; ring.
  - unfold yscale. cbn [y0 y1 e0 e1]. f_equal; ring.
Qed.

(** ** C50 *)

(** What is true: values survive the round trip.  The derivative does not: y2z combines the two entries with
    the factors exchanged, and this is the exact difference to the right answer. *)
Theorem C50_value_partial (c : piece) nr (z : Y) : 0 < peval (pp c) nr -> 0 < peval (pw c) nr ->
  let u := y2z_at c nr (z2y_at c nr z) in
  y0 u = y0 z /\ e0 u = e0 z /\
  y1 u - y1 z = (dsigma_at c nr - sigma_at c nr * xdr_at c nr) * (y1 (z2y_at c nr z) - y0 (z2y_at c nr z)) /\
  e1 u - e1 z = (dsigma_at c nr - sigma_at c nr * xdr_at c nr) * (e1 (z2y_at c nr z) - e0 (z2y_at c nr z)).
Proof.
  intros P W u.
  assert (F : 0 < peval (pp c) nr * peval (pw c) nr) by (apply Rmult_lt_0_compat; auto).
  assert (S0 : 0 < sigma_at c nr).
  { rewrite sigma_form by auto. apply Rdiv_lt_0_compat; [lra|]. do 2 apply sqrt_lt_R0. auto. }
  assert (X0 : 0 < xdr_at c nr) by (apply sqrt_lt_R0, Rdiv_lt_0_compat; auto).
  unfold u, y2z_at, z2y_at. cbv zeta. cbn [y0 y1 e0 e1].
  revert S0 X0. generalize (sigma_at c nr), (xdr_at c nr), (dsigma_at c nr). intros s x d S0 X0.
  repeat split; field; repeat split; lra.
Qed.

(** Values of Sturm-Liouville eigenfunctions: sigma(r) times the Schroedinger eigenfunction at x(r), where
    sigma is taken at a point r' within 2^-51 of a pre-image of x(r). *)
Theorem C50_eigenfunction_value fuel p w rmin rmax l ef r v x xmax :
  constructPiecewise fuel p w rmin rmax = Ret l -> rmin < rmax ->
  xDomain l = Ret (0, xmax) -> (forall q, nth_error l (length l - 1) = Some q -> x_min q < x_max q) ->
  r2x l r = Ret x -> 0 <= x <= xmax -> ef x = Ret v ->
  exists c r' r0 d, In c l /\ x_min c <= x <= x_max c /\ x2r l x = Ret r' /\ r2x l r0 = Ret x /\
    Rabs (r' - r0) <= (rmax - rmin) * (1/2) ^ 51 /\
    sl_ef l ef r = Ret (sigma_at c (normalizeR c r') * fst v, d).
Proof.
  intros H G D O Hr Hx Hv.
  destruct (C48_x2r _ _ _ _ _ _ _ x H G D O Hx) as [r0 [r' [A [_ [B C]]]]].
  destruct (C46_pieces _ _ _ _ _ _ H) as [xM [N [T1 [T2 [D' W]]]]]. rewrite D in D'. injection D' as <-.
  destruct (C47_lookup x_min x_max l 0 xmax x N T2) as [q [Fq [Iq [Cq _]]]]; auto.
  { intros q K. apply Rlt_le; auto. }
  unfold x2r, find_x in A. rewrite Fq in A. cbn [bind] in A. injection A as A.
  exists q, r', r0. eexists. split; auto. split; auto. split; [unfold x2r, find_x; rewrite Fq; cbn [bind]; now rewrite A|].
  split; auto. split; auto. unfold sl_ef, y2z, find_x. rewrite Hr. cbn [bind]. rewrite Hv. cbn [bind]. rewrite Fq. cbn [bind].
  rewrite A. unfold y2z_at. cbv zeta. cbn [y0 y1 fst snd]. rewrite (Rmult_comm (fst v)). reflexivity.
Qed.

(** Batch evaluation is pointwise evaluation, whenever the wrapped eigenfunction's is (C36). *)
Theorem C50_array (l : list piece) ef efs rs :
  (forall xs, efs xs = traverse ef xs) ->
  forall out, sl_ef_array l efs rs = Ret out -> traverse (sl_ef l ef) rs = Ret out.
Proof.
  intros Hefs out. unfold sl_ef_array. destruct (traverse (r2x l) rs) as [xs| | | ] eqn:Ex; try discriminate. cbn [bind].
  rewrite Hefs. destruct (traverse ef xs) as [zs| | | ] eqn:Ez; try discriminate. cbn [bind].
  revert xs zs Ex Ez out.
  assert (Gen : forall rs' xs' zs' n (f : nat -> res (R*R)), traverse (r2x l) rs' = Ret xs' -> traverse ef xs' = Ret zs' ->
    (forall i v x, nth_error zs' i = Some v -> nth_error xs' i = Some x ->
       f (n + i)%nat = (do z <- y2z l x (mkY (fst v) (snd v) 0 0); Ret (y0 z, y1 z))) ->
    forall out, traverse f (seq n (length rs')) = Ret out -> traverse (sl_ef l ef) rs' = Ret out).
  { induction rs' as [|r rs' IH]; intros xs' zs' n f Ex Ez Hf out Ho.
    - exact Ho.
    - cbn [traverse] in Ex. destruct (r2x l r) as [x| | | ] eqn:Er; try discriminate. cbn [bind] in Ex.
      destruct (traverse (r2x l) rs') as [xt| | | ] eqn:Et; try discriminate. cbn [bind] in Ex. injection Ex as <-.
      cbn [traverse] in Ez. destruct (ef x) as [v| | | ] eqn:Ev; try discriminate. cbn [bind] in Ez.
      destruct (traverse ef xt) as [zt| | | ] eqn:Ezt; try discriminate. cbn [bind] in Ez. injection Ez as <-.
      cbn [length seq traverse] in Ho |- *.
      pose proof (Hf 0%nat v x eq_refl eq_refl) as F0. rewrite Nat.add_0_r in F0. rewrite F0 in Ho.
      assert (Es : sl_ef l ef r = (do z <- y2z l x (mkY (fst v) (snd v) 0 0); Ret (y0 z, y1 z))).
      { unfold sl_ef. rewrite Er. cbn [bind]. rewrite Ev. reflexivity. }
      rewrite Es. destruct (do z <- y2z l x (mkY (fst v) (snd v) 0 0); Ret (y0 z, y1 z)) as [a| | | ]; try discriminate.
      cbn [bind] in Ho |- *. destruct (traverse f (seq (S n) (length rs'))) as [b| | | ] eqn:Eb; try discriminate. cbn [bind] in Ho. injection Ho as <-.
      rewrite (IH xt zt (S n) f eq_refl Ezt) with (out := b); auto.
      intros i v' x' K1 K2. rewrite <- (Hf (S i) v' x' K1 K2). f_equal. lia. }
  intros xs zs Ex Ez out Ho. eapply (Gen rs xs zs 0%nat); eauto.
  intros i v x K1 K2. cbn [Nat.add]. unfold vget. rewrite !Nat2Z.id. 
  assert ((Z.of_nat i <? 0)%Z = false) as -> by (apply Z.ltb_ge; lia). rewrite K1. cbn [bind]. rewrite K2. reflexivity.
Qed.

(** FALSE of the code: for -z'' = E z on [0,1] (p = w = 1, two pieces, the transformation is the identity), data
    with value 0 and derivative 1 at r = 1/4 comes back with derivative 0; and a Sturm-Liouville eigenfunction wrapping
    the function (value 0, derivative 1) reports derivative 0. *)
Definition c50_pieces : list piece :=
  [mkPiece 0 (1/2) 0 (1/2) [0; 1/2] [1] [1] [1]; mkPiece (1/2) 1 (1/2) 1 [1/2; 1/2] [1] [1] [1]].

Lemma c50_lookup v : 0 <= v < 1/2 -> forall fmin fmax : piece -> R,
  map fmin c50_pieces = [0; 1/2] -> map fmax c50_pieces = [1/2; 1] ->
  findPiece fmin fmax c50_pieces v = Ret (mkPiece 0 (1/2) 0 (1/2) [0; 1/2] [1] [1] [1]).
Proof.
  intros Hv fmin fmax E1 E2. unfold findPiece, lower_bound. unfold c50_pieces in *. cbn [map] in E1, E2.
  injection E1 as A0 A1. injection E2 as B0 B1. cbn [length lower_bound_loop Nat.div2 Nat.add nth_error].
  rewrite B1. rewrite (proj2 (Rleb_false 1 v)) by lra. cbn [lower_bound_loop Nat.div2 Nat.add nth_error].
  rewrite B0. rewrite (proj2 (Rleb_false (1/2) v)) by lra. cbn. rewrite A0, B0.
  rewrite (proj2 (Rleb_true 0 v)), (proj2 (Rleb_true v (1/2))) by lra. reflexivity.
Qed.

Theorem C50_derivative_refuted :
  tiles r_min r_max 0 1 c50_pieces /\ tiles x_min x_max 0 1 c50_pieces /\
  (forall q, In q c50_pieces -> peval (pr2x q) 0 = x_min q /\ peval (pr2x q) 1 = x_max q) /\
  r2x c50_pieces (1/4) = Ret (1/4) /\
  z2y c50_pieces (1/4) (mkY 0 1 0 0) = Ret (mkY 0 1 0 0) /\
  y2z c50_pieces (1/4) (mkY 0 1 0 0) = Ret (mkY 0 0 0 0) /\
  sl_ef c50_pieces (fun _ => Ret (0, 1)) (1/4) = Ret (0, 0).
Proof.
  assert (L : 0 <= 1/4 < 1/2) by lra.
  assert (Er : find_r c50_pieces (1/4) = Ret (mkPiece 0 (1/2) 0 (1/2) [0; 1/2] [1] [1] [1])) by (apply c50_lookup; auto).
  assert (Ex : find_x c50_pieces (1/4) = Ret (mkPiece 0 (1/2) 0 (1/2) [0; 1/2] [1] [1] [1])) by (apply c50_lookup; auto).
  assert (Er2x : r2x c50_pieces (1/4) = Ret (1/4)).
  { unfold r2x. rewrite Er. cbn [bind]. f_equal. unfold normalizeR. cbn. field. }
  set (c := mkPiece 0 (1/2) 0 (1/2) [0; 1/2] [1] [1] [1]) in *.
  assert (Ep : forall t, peval (pp c) t = 1) by (intros; cbn; auto). assert (Ew : forall t, peval (pw c) t = 1) by (intros; cbn; auto).
  assert (Exdr : forall t, xdr_at c t = 1) by (intros; unfold xdr_at; rewrite Ep, Ew; replace (1/1) with 1 by field; apply sqrt_1).
  assert (Es : forall t, sigma_at c t = 1) by (intros; unfold sigma_at; rewrite Ep, Exdr, Rmult_1_r, sqrt_1; field).
  assert (Eds : forall t, dsigma_at c t = 0).
  { intros; unfold dsigma_at; cbv zeta. rewrite Es, Ep, Ew. 
    replace (pderiv_at 1 (pp c) t) with 0 by (cbn; auto). replace (pderiv_at 1 (pw c) t) with 0 by (cbn; auto). unfold c; cbn [r_min r_max]. field. }
  assert (Ey : y2z c50_pieces (1/4) (mkY 0 1 0 0) = Ret (mkY 0 0 0 0)).
  { unfold y2z. rewrite Ex. cbn [bind]. f_equal. unfold y2z_at. cbv zeta. rewrite Es, Eds, Exdr. cbn [y0 y1 e0 e1]. f_equal; ring. }
  split; [cbn; repeat split; lra|]. split; [cbn; repeat split; lra|].
  split; [intros q [<-|[<-|[]]]; cbn; split; field|].
  split; auto. split.
  - unfold z2y. rewrite Er. cbn [bind]. f_equal. unfold z2y_at. cbv zeta. rewrite Es, Eds, Exdr. cbn [y0 y1 e0 e1]. f_equal; field.
  - split; auto. unfold sl_ef. rewrite Er2x. cbn [bind fst snd]. rewrite Ey. reflexivity.
Qed.

Print Assumptions C46_pieces.
Print Assumptions C46_terminates.
Print Assumptions C46_constant.
Print Assumptions C47_lookup.
Print Assumptions C47_constructed.
Print Assumptions C47_r2x.
Print Assumptions C48_halvings.
Print Assumptions C48_accuracy.
Print Assumptions C48_x2r.
Print Assumptions C49_sigma.
Print Assumptions C49_z2y.
Print Assumptions C49_potential.
Print Assumptions C49_boundary.
Print Assumptions C50_value_partial.
Print Assumptions C50_eigenfunction_value.
Print Assumptions C50_array.
Print Assumptions C50_derivative_refuted.
Print Assumptions C11_near_best.
Print Assumptions C49_product.
Print Assumptions C49_constant_product.
Print Assumptions C49_ends.
