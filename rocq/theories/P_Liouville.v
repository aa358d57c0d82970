(** Proofs about the construction, lookup and inversion of the Liouville coordinate. *)
From Coq Require Import String Reals ZArith Bool Lia Lra.
From Coquelicot Require Import Coquelicot.
From Coq Require Import List.
From Verif Require Import Base M_LegendreData M_Sectors M_Legendre M_Poly S_Poly P_Poly M_Core M_Liouville S_Liouville.
Import ListNotations.
Open Scope R_scope.

(** ** tiles *)
Section Tiles.
Context {A : Type} (fmin fmax : A -> R).
Notation tl := (tiles fmin fmax).
Lemma tiles_app l1 l2 lo mid hi : tl lo mid l1 -> tl mid hi l2 -> tl lo hi (l1 ++ l2).
Proof. revert lo. induction l1; simpl; intros; subst; auto. destruct H; eauto. Qed.
Lemma tiles_nth l lo hi i q q' : tl lo hi l -> nth_error l i = Some q -> nth_error l (S i) = Some q' -> fmin q' = fmax q.
Proof.
  revert lo i. induction l as [|x r IH]; intros lo i H Hi Hi'; [destruct i; discriminate|].
  destruct H as [H1 H2]. destruct i as [|i]; simpl in *.
  - injection Hi as ->. destruct r; [discriminate|]. simpl in Hi'. injection Hi' as ->. destruct H2; auto.
  - eauto.
Qed.
Lemma tiles_first l lo hi q : tl lo hi l -> nth_error l 0 = Some q -> fmin q = lo.
Proof. destruct l; simpl; [discriminate|]. intros [? _] K. injection K as ->; auto. Qed.
Lemma tiles_last l lo hi q : tl lo hi l -> nth_error l (Nat.pred (length l)) = Some q -> fmax q = hi.
Proof.
  revert lo; induction l as [|x r IH]; intros lo H K; simpl in *; [discriminate|].
  destruct r as [|y r]; simpl in *; [injection K as ->; tauto|]. destruct H as [_ H]. eapply IH; eauto.
Qed.
Lemma tiles_le l lo hi : tl lo hi l -> (forall q, In q l -> fmin q <= fmax q) -> lo <= hi /\ forall q, In q l -> lo <= fmin q /\ fmax q <= hi.
Proof.
  revert lo. induction l as [|x r IH]; simpl; intros lo H O.
  - subst. split; [lra|tauto].
  - destruct H as [H1 H2]. destruct (IH _ H2 (fun q k => O q (or_intror k))) as [A1 A2].
    pose proof (O x (or_introl eq_refl)). split; [lra|]. intros q [->|K]; [lra|]. specialize (A2 q K). lra.
Qed.
End Tiles.

(** ** The loop of std::lower_bound *)
Lemma lower_bound_loop_spec comp n : forall fuel first len,
  (len < fuel)%nat -> (first + len <= n)%nat ->
  (first = 0%nat \/ comp (first - 1)%nat = true) -> ((first + len)%nat = n \/ comp (first + len)%nat = false) ->
  let r := lower_bound_loop fuel comp first len in
  (r <= n)%nat /\ (r = 0%nat \/ comp (r - 1)%nat = true) /\ (r = n \/ comp r = false).
Proof.
  induction fuel as [|k IH]; intros first len Hf Hn H1 H2; [lia|].
  cbn [lower_bound_loop]. destruct len as [|len'].
  - rewrite Nat.add_0_r in H2, Hn. repeat split; auto; lia.
  - set (len := S len') in *. pose proof (Nat.lt_div2 len ltac:(lia)) as Hd.
    cbv zeta. destruct (comp (first + Nat.div2 len)%nat) eqn:E.
    + apply IH; try lia; [right|].
      * replace (S (first + Nat.div2 len) - 1)%nat with (first + Nat.div2 len)%nat by lia. auto.
      * replace (S (first + Nat.div2 len) + (len - Nat.div2 len - 1))%nat with (first + len)%nat by lia. auto.
    + apply IH; try lia; auto.
Qed.
Lemma lower_bound_spec comp n : let r := lower_bound comp n in
  (r <= n)%nat /\ (r = 0%nat \/ comp (r - 1)%nat = true) /\ (r = n \/ comp r = false).
Proof. apply lower_bound_loop_spec; auto; lia. Qed.

Section Find.
Context {A : Type} (fmin fmax : A -> R).
Lemma findPiece_spec (l : list A) lo hi v :
  l <> [] -> tiles fmin fmax lo hi l -> (forall q, nth_error l (Nat.pred (length l)) = Some q -> fmin q <= fmax q) ->
  lo <= v <= hi -> exists q, findPiece fmin fmax l v = Ret q /\ In q l /\ fmin q <= v <= fmax q /\ (v < fmax q \/ v = hi).
Proof.
  intros Hl T O Hv. unfold findPiece.
  set (comp := fun i => match nth_error l i with Some q => Rleb (fmax q) v | None => false end).
  pose proof (lower_bound_spec comp (length l)) as L. cbv zeta in L.
  set (i := lower_bound comp (length l)) in *. destruct L as [L1 [L2 L3]].
  assert (Hn : (0 < length l)%nat) by (destruct l; simpl in *; [congruence|lia]).
  destruct (Z.eqb_spec (Z.of_nat i) (Z.of_nat (length l))) as [e|ne].
  - assert (i = length l) as Ei by lia. destruct L2 as [L2|L2]; [lia|].
    unfold comp in L2. rewrite Ei in L2. rewrite Nat.sub_1_r in L2.
    destruct (nth_error l (Nat.pred (length l))) as [q|] eqn:E; [|discriminate].
    apply Rleb_true in L2. exists q.
    assert (vget l (Z.of_nat i - 1) = Ret q) as ->.
    { unfold vget. destruct (Z.ltb_spec (Z.of_nat i - 1) 0); [lia|].
      replace (Z.to_nat (Z.of_nat i - 1)) with (Nat.pred (length l)) by lia. rewrite E. auto. }
    cbn [bind]. pose proof (tiles_last fmin fmax _ _ _ _ T E). pose proof (O q eq_refl).
    assert (v = hi) by lra. rewrite (proj2 (Rleb_true (fmin q) v)) by lra. rewrite (proj2 (Rleb_true v (fmax q))) by lra.
    simpl. repeat split; auto; try lra. eapply nth_error_In; eauto.
  - destruct L3 as [L3|L3]; [lia|]. unfold comp in L3.
    destruct (nth_error l i) as [q|] eqn:E; [|apply nth_error_None in E; lia].
    apply Rleb_false in L3. exists q.
    assert (vget l (Z.of_nat i) = Ret q) as ->.
    { unfold vget. destruct (Z.ltb_spec (Z.of_nat i) 0); [lia|]. rewrite Nat2Z.id, E. auto. }
    cbn [bind].
    assert (fmin q <= v).
    { destruct L2 as [L2|L2].
      - rewrite L2 in E. rewrite (tiles_first _ _ _ _ _ _ T E). lra.
      - unfold comp in L2. destruct (nth_error l (i - 1)) as [q0|] eqn:E0; [|discriminate].
        apply Rleb_true in L2. destruct (Nat.eq_dec i 0) as [z|nz].
        + rewrite z in E. rewrite (tiles_first _ _ _ _ _ _ T E). lra.
        + assert (nth_error l (S (i - 1)) = Some q) as E' by (replace (S (i-1)) with i by lia; auto).
          rewrite (tiles_nth _ _ _ _ _ _ _ _ T E0 E'). lra. }
    rewrite (proj2 (Rleb_true (fmin q) v)) by lra. rewrite (proj2 (Rleb_true v (fmax q))) by lra.
    simpl. repeat split; auto; try lra. eapply nth_error_In; eauto.
Qed.
End Find.

(** ** Bisection *)
Lemma pow_half_S n : (1/2) ^ S n = (1/2) ^ n / 2. Proof. simpl; lra. Qed.
Lemma half50 : 1 / 10 ^ 15 < (1/2)^49 /\ (1/2)^50 <= 1 / 10 ^ 15.
Proof.
  assert (forall n, (1/2)^n = / (2^n)) as P.
  { intros n. replace (1/2) with (/2) by lra. rewrite pow_inv; auto. }
  rewrite !P. unfold Rdiv. rewrite Rmult_1_l.
  assert (10^15 = IZR (10^15)) as -> by apply (pow_IZR 10 15).
  assert (2^49 = IZR (2^49)) as -> by apply (pow_IZR 2 49).
  assert (2^50 = IZR (2^50)) as -> by apply (pow_IZR 2 50).
  assert (IZR (2^49) < IZR (10^15)) by (apply IZR_lt; reflexivity).
  assert (IZR (10^15) <= IZR (2^50)) by (apply IZR_le; vm_compute; congruence).
  assert (0 < IZR (2^49)) by (apply IZR_lt; reflexivity).
  split; [apply Rinv_lt_contravar; auto; apply Rmult_lt_0_compat; lra | apply Rinv_le_contravar; lra].
Qed.
Lemma pow_half_mono m n : (m <= n)%nat -> (1/2)^n <= (1/2)^m.
Proof. induction 1; [lra|]. rewrite pow_half_S. assert (0 < (1/2)^m0) by (apply pow_lt; lra). lra. Qed.

Lemma x2r_loop_run f x : forall k fuel low high,
  (k <= 50)%nat -> high - low = (1/2)^k -> (50 - k < fuel)%nat ->
  (low = 0 \/ f low <= x) -> (high = 1 \/ x < f high) -> 0 <= low -> high <= 1 ->
  exists lo' hi', x2r_loop fuel f x low high = Ret ((lo' + hi') / 2) /\ hi' - lo' = (1/2)^50 /\
    (lo' = 0 \/ f lo' <= x) /\ (hi' = 1 \/ x < f hi') /\ low <= lo' /\ hi' <= high.
Proof.
  intros k. remember (50 - k)%nat as d eqn:Ed. revert k Ed.
  induction d as [|d IH]; intros k Ed fuel low high Hk Hw Hf H1 H2 H3 H4; (destruct fuel as [|fu]; [lia|]); cbn [x2r_loop].
  - assert (k = 50)%nat by lia. subst k. rewrite (proj2 (Rltb_false _ _)) by (rewrite Hw; apply half50).
    exists low, high. repeat split; auto; lra.
  - rewrite (proj2 (Rltb_true _ _)).
    2:{ rewrite Hw. eapply Rlt_le_trans; [apply half50|]. apply pow_half_mono; lia. }
    cbv zeta. pose proof (pow_half_S k) as P. assert (0 < (1/2)^k) by (apply pow_lt; lra).
    destruct (Rltb x (f ((high + low)/2))) eqn:E.
    + apply Rltb_true in E. destruct (IH (S k) ltac:(lia) fu low ((high+low)/2)) as [l' [h' G]]; try lia; auto; try lra.
      exists l', h'. repeat split; try apply G. apply Rle_trans with ((high+low)/2); [apply G|lra].
    + apply Rltb_false in E. destruct (IH (S k) ltac:(lia) fu ((high+low)/2) high) as [l' [h' G]]; try lia; auto; try lra.
      exists l', h'. repeat split; try apply G. apply Rle_trans with ((high+low)/2); [lra|apply G].
Qed.
Lemma x2r_loop_fuel f x : forall fuel k low high, (k + fuel <= 50)%nat -> high - low = (1/2)^k -> x2r_loop fuel f x low high = Fuel.
Proof.
  induction fuel as [|n IH]; intros k low high Hk Hw; auto. cbn [x2r_loop].
  rewrite (proj2 (Rltb_true _ _)).
  2:{ rewrite Hw. eapply Rlt_le_trans; [apply half50|]. apply pow_half_mono; lia. }
  cbv zeta. pose proof (pow_half_S k).
  destruct (Rltb x _); apply (IH (S k)); try lia; lra.
Qed.

(** ** Pieces *)
Lemma polyval_padds p c x : p <> [] -> polyval (padds p c) x = polyval p x + c.
Proof.
  intros H. unfold padds. rewrite top_add_spec by (destruct p; simpl in *; [congruence|lia]).
  f_equal. rewrite polyval_cons, polyval_nil. ring.
Qed.
Lemma padds_ne p c : p <> [] -> padds p c <> [].
Proof. unfold padds; destruct p; simpl; congruence. Qed.
Lemma peval_padds p c x : p <> [] -> peval (padds p c) x = peval p x + c.
Proof. intros H. rewrite !peval_spec by auto using padds_ne. apply polyval_padds; auto. Qed.

(** ends of the map agree with the x-interval *)
Definition wf_piece (p w : R -> R) (q : piece) : Prop :=
  pr2x q <> [] /\ peval (pr2x q) 0 = x_min q /\ peval (pr2x q) 1 = x_max q /\
  pp q = asPolynomial 9 p (r_min q) (r_max q) /\ pw q = asPolynomial 9 w (r_min q) (r_max q).
Definition built (p w : R -> R) (q : piece) : Prop := wf_piece p w q /\ exists xm, q = setXMin (make_piece p w (r_min q) (r_max q)) xm.

Lemma make_piece_wf p w a b : wf_piece p w (make_piece p w a b).
Proof.
  unfold wf_piece, make_piece. cbv zeta. cbn [pr2x x_min x_max r_min r_max pp pw].
  match goal with |- context [pint ?q] => set (PI := q) end.
  assert (pmuls (pint PI) (b - a) <> []) as N by discriminate.
  repeat split; auto. rewrite peval_spec by auto. unfold pmuls.
  rewrite (polyval_map_scale _ (b - a)) by auto. rewrite pint_0. ring.
Qed.
Lemma setXMin_wf p w q x : wf_piece p w q -> wf_piece p w (setXMin q x).
Proof.
  unfold setXMin. destruct (Reqb x (x_min q)) eqn:E; auto. cbv zeta. intros [A [B [C [D F]]]].
  unfold wf_piece. cbn [pr2x x_min x_max r_min r_max pp pw].
  rewrite !peval_padds by auto. repeat split; auto using padds_ne; lra.
Qed.
Lemma setXMin_xmin q x : x_min (setXMin q x) = x.
Proof. unfold setXMin. destruct (Reqb x (x_min q)) eqn:E; auto. apply Reqb_true in E; auto. Qed.
Lemma setXMin_r q x : r_min (setXMin q x) = r_min q /\ r_max (setXMin q x) = r_max q.
Proof. unfold setXMin. destruct (Reqb x (x_min q)); auto. Qed.
Lemma setXMin_built p w a b x : built p w (setXMin (make_piece p w a b) x).
Proof.
  split; [apply setXMin_wf, make_piece_wf|]. exists x. destruct (setXMin_r (make_piece p w a b) x) as [E1 E2]. rewrite E1, E2. reflexivity.
Qed.
Lemma setXMin_width q x : x_max (setXMin q x) - x_min (setXMin q x) = x_max q - x_min q.
Proof. unfold setXMin. destruct (Reqb x (x_min q)); auto. simpl. ring. Qed.
Lemma setXMin_shift q x : pr2x q <> [] -> forall t, peval (pr2x (setXMin q x)) t = peval (pr2x q) t + (x - x_min q).
Proof.
  intros N t. unfold setXMin. destruct (Reqb x (x_min q)) eqn:E.
  - apply Reqb_true in E. lra.
  - cbn [pr2x]. cbv zeta. cbn [pr2x]. apply peval_padds; auto.
Qed.

Lemma construct_loop_spec p w rmin rmax : forall fuel toDo xm pieces l rc,
  construct_loop fuel p w toDo xm pieces = Ret l ->
  tiles r_min r_max rmin rc pieces -> tiles x_min x_max 0 xm pieces -> tiles r_min r_max rc rmax toDo ->
  (forall q, In q pieces -> built p w q) -> (rmin < rmax -> forall q, In q pieces \/ In q toDo -> r_min q < r_max q) -> toDo <> [] \/ pieces <> [] ->
  exists xM, l <> [] /\ tiles r_min r_max rmin rmax l /\ tiles x_min x_max 0 xM l /\ (forall q, In q l -> built p w q) /\
    (rmin < rmax -> forall q, In q l -> r_min q < r_max q).
Proof.
  induction fuel as [|k IH]; intros toDo xm pieces l rc H Hr Hx Ht Hw Ho Hne; [discriminate|].
  cbn [construct_loop] in H. destruct toDo as [|next0 rest].
  - injection H as <-. exists xm. simpl in Ht. subst rc. destruct Hne as [n|n]; [congruence|]. split; [auto|]. split; [auto|]. split; [auto|]. split; auto.
  - cbv zeta in H. destruct (setXMin_r next0 xm) as [R1 R2]. rewrite R1, R2 in H.
    set (rMid := (r_min next0 + r_max next0) / 2) in *.
    set (left := setXMin (make_piece p w (r_min next0) rMid) xm) in *.
    set (right := setXMin (make_piece p w rMid (r_max next0)) (x_max left)) in *.
    destruct Ht as [T1 T2].
    assert (L : r_min left = rc /\ r_max left = rMid) by (unfold left; destruct (setXMin_r (make_piece p w (r_min next0) rMid) xm) as [-> ->]; simpl; auto).
    assert (Rr : r_min right = rMid /\ r_max right = r_max next0) by (unfold right; destruct (setXMin_r (make_piece p w rMid (r_max next0)) (x_max left)) as [-> ->]; simpl; auto).
    assert (Lx : x_min left = xm) by apply setXMin_xmin.
    assert (Rx : x_min right = x_max left) by apply setXMin_xmin.
    assert (Ho' : rmin < rmax -> r_min left < r_max left /\ r_min right < r_max right).
    { intros G. specialize (Ho G next0 (or_intror (or_introl eq_refl))). unfold rMid in *. lra. }
    destruct (accept _ left right).
    + apply (IH _ _ _ _ (r_max next0)) in H; auto.
      * apply tiles_app with rc; auto. simpl. repeat split; lra.
      * apply tiles_app with xm; auto. simpl. repeat split; lra.
      * intros q K. apply in_app_or in K as [K|[<-|[<-|[]]]]; auto; apply setXMin_built.
      * intros G q [K|K]; [|apply Ho; auto; right; right; auto].
        apply in_app_or in K as [K|[<-|[<-|[]]]]; [apply Ho; auto|apply Ho'; auto|apply Ho'; auto].
      * right. destruct pieces; discriminate.
    + apply (IH _ _ _ _ rc) in H; auto.
      * simpl. repeat split; try lra. destruct Rr as [_ ->]; auto.
      * intros G q [K|[<-|[<-|K]]]; [apply Ho; auto|apply Ho'; auto|apply Ho'; auto|apply Ho; auto; right; right; auto].
      * left; discriminate.
Qed.
