(** Accumulation of the sector errors over a whole propagation. *)
From Coq Require Import String Reals ZArith Lra Lia.
From Coquelicot Require Import Coquelicot.
From Coq Require Import List Bool.
From Verif Require Import Base S_Sectors S_Legendre S_Formulas M_Sectors M_Core S_Core M_Formulas S_Accuracy P_Core P_Core2 P_Global P_Global2.
Import ListNotations.
Open Scope R_scope.

Definition sumf (f : sec -> R) (l : list sec) : R := fold_right (fun s acc => f s + acc) 0 l.
Lemma sumf_cons : forall f s l, sumf f (s :: l) = f s + sumf f l. Proof. reflexivity. Qed.
Lemma sumf_nil : forall f, sumf f [] = 0. Proof. reflexivity. Qed.
Lemma sumf_app : forall f l1 l2, sumf f (l1 ++ l2) = sumf f l1 + sumf f l2.
Proof. intros f l1 l2. induction l1 as [|s l1 IH]; cbn [app]; rewrite ?sumf_cons, ?sumf_nil; [lra|]. rewrite IH. ring. Qed.
Lemma sumf_rev : forall f l, sumf f (rev l) = sumf f l.
Proof. intros f l. induction l as [|s l IH]; [reflexivity|]. cbn [rev]. rewrite sumf_app, IH. rewrite !sumf_cons, sumf_nil. ring. Qed.
Lemma sumf_nonneg : forall f l, (forall s, In s l -> 0 <= f s) -> 0 <= sumf f l.
Proof.
  intros f l H. induction l as [|s l IH]; rewrite ?sumf_cons, ?sumf_nil; [lra|].
  specialize (IH ltac:(intros; apply H; right; assumption)). pose proof (H s (or_introl eq_refl)). lra.
Qed.
Lemma sumf_le : forall f g l, (forall s, In s l -> f s <= g s) -> sumf f l <= sumf g l.
Proof.
  intros f g l H. induction l as [|s l IH]; rewrite ?sumf_cons, ?sumf_nil; [lra|].
  specialize (IH ltac:(intros; apply H; right; assumption)). pose proof (H s (or_introl eq_refl)). lra.
Qed.
Lemma sumf_plus : forall f g l, sumf (fun s => f s + g s) l = sumf f l + sumf g l.
Proof. intros f g l. induction l as [|s l IH]; rewrite ?sumf_cons, ?sumf_nil; [lra|]. rewrite IH. ring. Qed.
Lemma sumf_scal : forall f c l, sumf (fun s => f s * c) l = sumf f l * c.
Proof. intros f c l. induction l as [|s l IH]; rewrite ?sumf_cons, ?sumf_nil; [lra|]. rewrite IH. ring. Qed.
Lemma sumf_const : forall c l, sumf (fun _ => c) l = INR (length l) * c.
Proof.
  intros c l. induction l as [|s l IH]; [cbn; ring|]. rewrite ?sumf_cons, ?sumf_nil. rewrite IH.
  cbn [length]. rewrite S_INR. ring.
Qed.
Lemma sumf_sh : forall l lo hi, chain lo hi l -> sumf (@sh) l = hi - lo.
Proof.
  induction l as [|s l IH]; intros lo hi C; cbn in C; [subst; cbn; ring|]. destruct C as [E C]. rewrite ?sumf_cons, ?sumf_nil.
  rewrite (IH _ _ C). unfold sh. subst. ring.
Qed.

Fixpoint linked (en ex : sec -> R) (p q : R) (ss : list sec) : Prop :=
  match ss with [] => p = q | s :: r => en s = p /\ linked en ex (ex s) q r end.
Lemma linked_app : forall en ex l1 l2 p q r, linked en ex p q l1 -> linked en ex q r l2 -> linked en ex p r (l1 ++ l2).
Proof.
  intros en ex l1. induction l1 as [|s l1 IH]; intros l2 p q r H1 H2; cbn [app linked] in *; [subst; exact H2|].
  destruct H1 as [A H1]. split; [exact A|]. eapply IH; eassumption.
Qed.

Section Accumulate.
Variable calcT : sec -> R -> R -> bool -> Tm.
Variable vm : R.
Lemma accumulate : forall A en ex eps y y' E a b u ss p q Z, 0 <= A -> linked en ex p q ss ->
  (forall s, In s ss -> 0 <= sh s /\ 0 <= eps s /\ N1 (y (ex s)) (y' (ex s)) <= (1 + A * sh s) * N1 (y (en s)) (y' (en s)) /\
     forall Z, dist (yprop calcT vm s E a b u Z) (y (ex s)) (y' (ex s)) <= (1 + A * sh s) * dist Z (y (en s)) (y' (en s)) + A * eps s * N1 (y (en s)) (y' (en s))) ->
  dist (runY calcT vm ss E a b u Z) (y q) (y' q) <= exp (A * sumf sh ss) * (dist Z (y p) (y' p) + A * N1 (y p) (y' p) * sumf eps ss).
Proof.
  intros A en ex eps y y' E a b u ss. induction ss as [|s ss IH]; intros p q Z HA HL H.
  - cbn in HL. subst q. cbn. rewrite !Rmult_0_r, exp_0. lra.
  - destruct HL as [Hp HL]. subst p. destruct (H s (or_introl eq_refl)) as (H0 & He & HN & HD). specialize (HD Z).
    rewrite ?sumf_cons, ?sumf_nil.
    change (runY calcT vm (s :: ss) E a b u Z) with (runY calcT vm ss E a b u (yprop calcT vm s E a b u Z)).
    specialize (IH (ex s) q (yprop calcT vm s E a b u Z) HA HL ltac:(intros; apply H; right; assumption)).
    eapply Rle_trans; [exact IH|]. rewrite (Rmult_plus_distr_l A (sh s)), exp_plus. rewrite (Rmult_comm (exp (A * sh s))), (Rmult_assoc (exp (A * sumf sh ss))).
    apply Rmult_le_compat_l; [left; apply exp_pos|].
    set (e := exp (A * sh s)). assert (1 + A * sh s <= e) as H1e by apply exp_ineq1_le.
    assert (0 <= A * sh s) as Hah by (apply Rmult_le_pos; assumption).
    set (N := N1 (y (en s)) (y' (en s))) in *. assert (0 <= N) as HN0 by apply N1_nonneg.
    set (D := dist Z (y (en s)) (y' (en s))) in *. assert (0 <= D) as HD0 by apply N1_nonneg.
    assert (0 <= sumf eps ss) as HS. { apply sumf_nonneg. intros t Ht. destruct (H t (or_intror Ht)) as (_ & ? & _). assumption. }
    set (S := sumf eps ss) in *.
    assert ((1 + A * sh s) * D <= e * D) by (apply Rmult_le_compat_r; assumption).
    assert (0 <= A * eps s * N) as Q by (apply Rmult_le_pos; [apply Rmult_le_pos|]; assumption).
    assert (A * eps s * N <= e * (A * eps s * N)) by (rewrite <- (Rmult_1_l (A * eps s * N)) at 1; apply Rmult_le_compat_r; lra).
    assert (A * N1 (y (ex s)) (y' (ex s)) * S <= e * (A * N * S)).
    { replace (e * (A * N * S)) with (A * (e * N) * S) by ring. apply Rmult_le_compat_r; [exact HS|]. apply Rmult_le_compat_l; [exact HA|].
      eapply Rle_trans; [exact HN|]. apply Rmult_le_compat_r; assumption. }
    lra.
Qed.
End Accumulate.

(** the position reached by the propagation when it has passed x *)
Definition qq (a b x : R) : R := Rmax (Rmin a b) (Rmin x (Rmax a b)).
Definition noop (s : sec) (a b : R) : Prop := (smax s <= a /\ smax s <= b) \/ (a <= smin s /\ b <= smin s).
Lemma noop_dec : forall s a b, {noop s a b} + {~ noop s a b}.
Proof.
  intros s a b. unfold noop. destruct (Rle_dec (smax s) a), (Rle_dec (smax s) b), (Rle_dec a (smin s)), (Rle_dec b (smin s)); try (left; tauto); right; tauto.
Qed.
Ltac mm := unfold qq, cl, Rmax, Rmin; repeat destruct (Rle_dec _ _); lra.
Lemma qq_low : forall a b x, x <= a -> x <= b -> qq a b x = Rmin a b. Proof. intros. mm. Qed.
Lemma qq_high : forall a b x, a <= x -> b <= x -> qq a b x = Rmax a b. Proof. intros. mm. Qed.
Lemma qq_noop : forall s a b, smin s <= smax s -> noop s a b -> qq a b (smin s) = qq a b (smax s).
Proof. intros s a b Ho [[H1 H2]|[H1 H2]]; mm. Qed.
Lemma qq_up : forall s a b, smin s <= smax s -> a <= b -> ~ noop s a b -> qq a b (smin s) = cl s a /\ qq a b (smax s) = cl s b.
Proof.
  intros s a b Ho Hab Hn. assert (a < smax s) by (apply Rnot_le_lt; intro; apply Hn; left; lra). assert (smin s < b) by (apply Rnot_le_lt; intro; apply Hn; right; lra).
  split; mm.
Qed.
Lemma qq_down : forall s a b, smin s <= smax s -> b <= a -> ~ noop s a b -> qq a b (smax s) = cl s a /\ qq a b (smin s) = cl s b.
Proof.
  intros s a b Ho Hab Hn. assert (b < smax s) by (apply Rnot_le_lt; intro; apply Hn; left; lra). assert (smin s < a) by (apply Rnot_le_lt; intro; apply Hn; right; lra).
  split; mm.
Qed.
Lemma qq_sym : forall a b x, qq a b x = qq b a x. Proof. intros. unfold qq. rewrite (Rmin_comm b a), (Rmax_comm b a). reflexivity. Qed.

Lemma linked_up : forall a b l lo hi, chain lo hi l -> linked (fun s => qq a b (smin s)) (fun s => qq a b (smax s)) (qq a b lo) (qq a b hi) l.
Proof. intros a b l. induction l as [|s l IH]; intros lo hi C; cbn in *; [subst; reflexivity|]. destruct C as [-> C]. split; [reflexivity|apply IH, C]. Qed.
Lemma linked_down : forall a b l lo hi, chain lo hi l -> linked (fun s => qq a b (smax s)) (fun s => qq a b (smin s)) (qq a b hi) (qq a b lo) (rev l).
Proof.
  intros a b l. induction l as [|s l IH]; intros lo hi C; cbn [rev chain] in *; [subst; reflexivity|]. destruct C as [<- C].
  eapply linked_app; [apply IH, C|]. cbn. auto.
Qed.

(** at most one sector has x strictly inside *)
Definition inside (s : sec) (x : R) : R := if Rlt_dec (smin s) x then if Rlt_dec x (smax s) then 1 else 0 else 0.
Lemma inside_range : forall s x, 0 <= inside s x <= 1.
Proof. intros s x. unfold inside. destruct (Rlt_dec _ _); [destruct (Rlt_dec _ _)|]; lra. Qed.
Lemma sum_inside : forall x l lo hi, chain lo hi l -> (forall s, In s l -> smin s <= smax s) -> sumf (fun s => inside s x) l <= 1.
Proof.
  intros x l. induction l as [|s l IH]; intros lo hi C O; rewrite ?sumf_cons, ?sumf_nil; [lra|]. cbn in C. destruct C as [E C].
  destruct (chain_order l (smax s) hi C ltac:(intros; apply O; right; assumption)) as [_ CO].
  specialize (IH _ _ C ltac:(intros; apply O; right; assumption)). pose proof (inside_range s x).
  destruct (Rlt_dec x (smax s)) as [Hx|Hx].
  - assert (sumf (fun s => inside s x) l <= 0); [|lra].
    eapply Rle_trans; [apply (sumf_le _ (fun _ => 0))|rewrite sumf_const; lra].
    intros t Ht. destruct (CO t Ht) as [Q _]. unfold inside. destruct (Rlt_dec (smin t) x); [lra|lra].
  - assert (inside s x = 0); [|lra]. unfold inside. destruct (Rlt_dec _ _); [destruct (Rlt_dec _ _); [contradiction|reflexivity]|reflexivity].
Qed.
Lemma inside_boundary : forall x l lo hi, chain lo hi l -> (forall s, In s l -> smin s <= smax s) -> is_boundary x l -> forall s, In s l -> inside s x = 0.
Proof.
  intros x l. induction l as [|t l IH]; intros lo hi C O [w [Hw HB]] s Hs; [destruct Hs|]. cbn in C. destruct C as [E C].
  destruct (chain_order l (smax t) hi C ltac:(intros; apply O; right; assumption)) as [_ CO].
  assert (forall v, In v l -> smin v <= smax v) as O' by (intros; apply O; right; assumption).
  pose proof (O t (or_introl eq_refl)).
  destruct Hw as [<-|Hw], Hs as [<-|Hs].
  - unfold inside. destruct HB as [<-|<-]; destruct (Rlt_dec _ _); try lra; destruct (Rlt_dec _ _); lra.
  - destruct (CO s Hs). unfold inside. destruct HB as [<-|<-]; destruct (Rlt_dec _ _); try lra; destruct (Rlt_dec _ _); lra.
  - destruct (CO w Hw). pose proof (O' w Hw). unfold inside. destruct HB as [<-|<-]; destruct (Rlt_dec _ _); try lra; destruct (Rlt_dec _ _); lra.
  - apply (IH _ _ C O'); [exists w; auto|exact Hs].
Qed.

Definition ord (u : bool) : nat := if u then 18%nat else 14%nat.
(** sum of the step errors *)
Lemma sum_step_err : forall u x l lo hi H pen, chain lo hi l -> 0 < H <= 1 -> (forall s, In s l -> 0 < sh s <= H) ->
  (is_boundary x l /\ pen = 0) \/ pen = H ^ 15 + / 10 ^ 12 ->
  sumf (fun s => step_err s u x) l <= (hi - lo) * H ^ ord u + INR (length l) / 10 ^ 20 + pen.
Proof.
  intros u x l lo hi H pen C HH O Hp.
  assert (forall s, In s l -> smin s <= smax s) as Oo by (intros s Hs; specialize (O s Hs); unfold sh in O; lra).
  assert (0 < / 10 ^ 20) as E20 by (apply Rinv_0_lt_compat, pow_lt; lra). assert (0 < / 10 ^ 12) as E12 by (apply Rinv_0_lt_compat, pow_lt; lra).
  assert (0 < H ^ 15) as H15 by (apply pow_lt; lra).
  assert (sumf (fun s => inside s x * (H ^ 15 + / 10 ^ 12)) l <= pen) as HI.
  { destruct Hp as [[Hb ->]| ->].
    - eapply Rle_trans; [apply (sumf_le _ (fun _ => 0))|rewrite sumf_const; lra]. intros s Hs. rewrite (inside_boundary x l lo hi C Oo Hb s Hs). lra.
    - rewrite sumf_scal. pose proof (sum_inside x l lo hi C Oo) as Q. rewrite <- (Rmult_1_l (H ^ 15 + / 10 ^ 12)) at 2. apply Rmult_le_compat_r; lra. }
  eapply Rle_trans; [apply (sumf_le _ (fun s => sh s * H ^ ord u + / 10 ^ 20 + inside s x * (H ^ 15 + / 10 ^ 12)))|].
  2:{ rewrite sumf_plus, sumf_plus, sumf_scal, sumf_const, (sumf_sh _ _ _ C). unfold Rdiv. lra. }
  intros s Hs. specialize (O s Hs). 
  assert (forall n m, (m = S n)%nat -> sh s ^ m <= sh s * H ^ n) as Pw.
  { intros n m ->. cbn [pow]. apply Rmult_le_compat_l; [lra|]. apply pow_incr. lra. }
  assert (sh s ^ (if u then 19 else 15) <= sh s * H ^ ord u) as P1 by (destruct u; apply Pw; reflexivity).
  assert (0 <= sh s * H ^ ord u) as P2 by (apply Rmult_le_pos; [lra|apply pow_le; lra]).
  assert (sh s ^ 15 <= H ^ 15) as P3 by (apply pow_incr; lra).
  unfold step_err, inside. destruct (Rlt_dec (smin s) x); [destruct (Rlt_dec x (smax s))|]; lra.
Qed.

Lemma propagation_accuracy : forall B W D L, 0 <= B -> 0 <= W -> 0 <= D -> 0 <= L -> exists K, 0 <= K /\
  forall vm l lo hi V E H tau y y' a b u Z pen,
  partition lo hi l -> hi - lo <= L -> H <= 1 -> 0 <= tau <= D ->
  (forall s, In s l -> sector_ok V E B W H tau s) -> solution V E lo hi l y y' ->
  lo <= a <= hi -> lo <= b <= hi ->
  (is_boundary a l /\ is_boundary b l /\ pen = 0) \/ pen = H ^ 15 + / 10 ^ 12 ->
  exists Z' th, propagate (calculateT eta_code) vm l lo hi E Z a b u = Ret (Z', th) /\
    N1 (y b) (y' b) <= K * N1 (y a) (y' a) /\
    dist Z' (y b) (y' b) <= K * (dist Z (y a) (y' a) + N1 (y a) (y' a) * (H ^ ord u + tau + INR (length l) / 10 ^ 20 + pen)).
Proof.
  intros B W D L HB HW HD HL. destruct (sector_accuracy B W D HB HW HD) as (A & HA & HS).
  exists (exp (A * L) * (1 + A * (2 * L + 2))).
  assert (1 <= exp (A * L)) as Hexp1. { rewrite <- exp_0. destruct (Req_dec (A * L) 0) as [->|Hne]; [lra|]. left. apply exp_increasing. assert (0 <= A * L) by (apply Rmult_le_pos; assumption). lra. }
  assert (0 <= A * (2 * L + 2)) as HAL by (apply Rmult_le_pos; lra).
  split; [apply Rmult_le_pos; lra|].
  intros vm l lo hi V E H tau y y' a b u Z pen PT Hlen HH Htau Hok [Hc Hd] Ha Hb Hpen.
  pose proof PT as [Hne Ch].
  assert (forall s, In s l -> 0 < sh s <= H) as Hsh. { intros s Hs. destruct (Hok s Hs) as (_ & Q & _). assert (0 < / 10 ^ 12) by (apply Rinv_0_lt_compat, pow_lt; lra). lra. }
  assert (0 < H <= 1) as HH0. { destruct l as [|s0 l0]; [congruence|]. specialize (Hsh s0 (or_introl eq_refl)). lra. }
  assert (forall s, In s l -> smin s < smax s) as Hlt by (intros s Hs; specialize (Hsh s Hs); unfold sh in Hsh; lra).
  assert (forall s, In s l -> smin s <= smax s) as Hle by (intros s Hs; specialize (Hlt s Hs); lra).
  destruct (chain_order l lo hi Ch Hle) as [Hlh CO].
  assert (forall s, In s l -> sol_on V E (smin s) (smax s) y y') as Hsol.
  { intros s Hs. destruct (CO s Hs). split; intros x Hx; [apply Hc; lra|apply (Hd s x Hs Hx)]. }
  destruct (propagate_full (calculateT eta_code) vm l lo hi PT a b Hle Ha Hb E Z u) as [th Hrun].
  eexists. exists th. split; [exact Hrun|].
  set (eps := fun s => step_err s u a + step_err s u b + sh s * tau).
  assert (forall s, In s l -> 0 <= step_err s u a /\ 0 <= step_err s u b /\ 0 <= sh s * tau) as Hpos.
  { intros s Hs. destruct (Hok s Hs) as (_ & Q & _). pose proof (step_err_small s u a ltac:(lra)). pose proof (step_err_small s u b ltac:(lra)). specialize (Hsh s Hs).
    split; [lra|]. split; [lra|]. apply Rmult_le_pos; lra. }
  assert (0 <= H ^ ord u) as Hord by (apply pow_le; lra).
  assert (0 <= INR (length l) / 10 ^ 20) as Hn20. { apply Rmult_le_pos; [apply pos_INR|]. left. apply Rinv_0_lt_compat, pow_lt. lra. }
  assert (0 <= pen) as Hpen0. { destruct Hpen as [(_ & _ & ->)| ->]; [lra|]. assert (0 < H ^ 15) by (apply pow_lt; lra). assert (0 < / 10 ^ 12) by (apply Rinv_0_lt_compat, pow_lt; lra). lra. }
  assert (sumf eps l <= (2 * L + 2) * (H ^ ord u + tau + INR (length l) / 10 ^ 20 + pen)) as Heps.
  { unfold eps. rewrite sumf_plus, sumf_plus, sumf_scal, (sumf_sh _ _ _ Ch).
    assert (forall x, (x = a \/ x = b) -> sumf (fun s => step_err s u x) l <= (hi - lo) * H ^ ord u + INR (length l) / 10 ^ 20 + pen) as Q.
    { intros x Hx. apply (sum_step_err u x l lo hi H pen Ch HH0 Hsh). destruct Hpen as [(B1 & B2 & ->)| ->]; [left|right; reflexivity]. destruct Hx as [->| ->]; auto. }
    pose proof (Q a (or_introl eq_refl)). pose proof (Q b (or_intror eq_refl)).
    assert ((hi - lo) * H ^ ord u <= L * H ^ ord u) by (apply Rmult_le_compat_r; lra). assert ((hi - lo) * tau <= L * tau) by (apply Rmult_le_compat_r; lra).
    assert (0 <= L * H ^ ord u) by (apply Rmult_le_pos; lra). assert (0 <= L * tau) by (apply Rmult_le_pos; lra).
    assert (0 <= L * (INR (length l) / 10 ^ 20)) by (apply Rmult_le_pos; lra). assert (0 <= L * pen) by (apply Rmult_le_pos; lra). lra. }
  (* one sector, entering and leaving *)
  assert (forall s e x, In s l -> (noop s a b -> e = x) -> (~ noop s a b -> e = cl s a /\ x = cl s b) ->
      0 <= sh s /\ 0 <= eps s /\ N1 (y x) (y' x) <= (1 + A * sh s) * N1 (y e) (y' e) /\
      forall Z, dist (yprop (calculateT eta_code) vm s E a b u Z) (y x) (y' x) <= (1 + A * sh s) * dist Z (y e) (y' e) + A * eps s * N1 (y e) (y' e)) as Hone.
  { intros s e x Hs Hnoop Hstep. destruct (Hpos s Hs) as (P1 & P2 & P3). specialize (Hsh s Hs).
    assert (0 <= eps s) as Q by (unfold eps; lra). assert (0 <= A * sh s) as Qa by (apply Rmult_le_pos; lra).
    destruct (HS vm s E V H tau y y' (Hok s Hs) ltac:(lra) Htau (Hsol s Hs)) as [G1 G2].
    split; [lra|]. split; [exact Q|]. destruct (noop_dec s a b) as [Hno|Hno].
    - rewrite <- (Hnoop Hno). pose proof (N1_nonneg (y e) (y' e)) as N0.
      assert (0 <= A * sh s * N1 (y e) (y' e)) by (apply Rmult_le_pos; assumption).
      split; [lra|]. intro Z0. unfold yprop. rewrite yprop_noop by exact Hno. cbn [fst].
      assert (0 <= dist Z0 (y e) (y' e)) by apply N1_nonneg. assert (0 <= A * sh s * dist Z0 (y e) (y' e)) by (apply Rmult_le_pos; assumption).
      assert (0 <= A * eps s * N1 (y e) (y' e)) by (apply Rmult_le_pos; [apply Rmult_le_pos|]; assumption). lra.
    - destruct (Hstep Hno) as [-> ->]. split; [apply G1; apply cl_range; apply Hle, Hs|]. intro Z0. apply G2. exact Hno. }
  assert (forall en ex ss, linked en ex a b ss -> (ss = l \/ ss = rev l) ->
      (forall s, In s l -> (noop s a b -> en s = ex s) /\ (~ noop s a b -> en s = cl s a /\ ex s = cl s b)) ->
      N1 (y b) (y' b) <= exp (A * L) * N1 (y a) (y' a) /\
      dist (runY (calculateT eta_code) vm ss E a b u Z) (y b) (y' b) <= exp (A * L) * (dist Z (y a) (y' a) + A * N1 (y a) (y' a) * sumf eps l)) as Hfin.
  { intros en ex ss Hlink Hss Hcase.
    assert (forall s, In s ss -> In s l) as Hin by (intros s Hs; destruct Hss as [->| ->]; [exact Hs|apply in_rev in Hs; exact Hs]).
    assert (sumf eps ss = sumf eps l) as He by (destruct Hss as [->| ->]; [reflexivity|apply sumf_rev]).
    assert (sumf sh ss = hi - lo) as Hs' by (destruct Hss as [->| ->]; [|rewrite sumf_rev]; apply sumf_sh, Ch).
    assert (exp (A * sumf sh ss) <= exp (A * L)) as Hex.
    { rewrite Hs'. destruct (Req_dec (A * (hi - lo)) (A * L)) as [->|Hne']; [lra|]. left. apply exp_increasing.
      assert (A * (hi - lo) <= A * L) by (apply Rmult_le_compat_l; lra). lra. }
    split.
    - assert (forall ss p, linked en ex p b ss -> (forall s, In s ss -> In s l) -> N1 (y b) (y' b) <= exp (A * sumf sh ss) * N1 (y p) (y' p)) as G.
      { clear - Hone Hcase HA Hsh. induction ss as [|s ss IH]; intros p Hl Hin.
        - cbn in Hl. subst p. cbn. rewrite Rmult_0_r, exp_0. lra.
        - cbn in Hl. destruct Hl as [<- Hl]. destruct (Hcase s (Hin s (or_introl eq_refl))) as [C1 C2].
          destruct (Hone s (en s) (ex s) (Hin s (or_introl eq_refl)) C1 C2) as (_ & _ & HN & _).
          specialize (IH _ Hl ltac:(intros; apply Hin; right; assumption)). eapply Rle_trans; [exact IH|].
          rewrite ?sumf_cons, ?sumf_nil. rewrite (Rmult_plus_distr_l A (sh s)), exp_plus. rewrite (Rmult_comm (exp (A * sh s))), (Rmult_assoc (exp (A * sumf sh ss))).
          apply Rmult_le_compat_l; [left; apply exp_pos|]. eapply Rle_trans; [exact HN|]. apply Rmult_le_compat_r; [apply N1_nonneg|apply exp_ineq1_le]. }
      eapply Rle_trans; [apply (G ss a Hlink Hin)|]. apply Rmult_le_compat_r; [apply N1_nonneg|exact Hex].
    - eapply Rle_trans; [apply (accumulate _ vm A en ex eps y y' E a b u ss a b Z HA Hlink)|].
      + intros s Hs. destruct (Hcase s (Hin s Hs)) as [C1 C2]. apply Hone; auto.
      + rewrite He. apply Rmult_le_compat_r; [|exact Hex]. assert (0 <= dist Z (y a) (y' a)) by apply N1_nonneg.
        assert (0 <= A * N1 (y a) (y' a) * sumf eps l). { apply Rmult_le_pos; [apply Rmult_le_pos; [exact HA|apply N1_nonneg]|]. apply sumf_nonneg. intros s Hs. destruct (Hpos s Hs) as (? & ? & ?). unfold eps; lra. }
        lra. }
  assert (N1 (y b) (y' b) <= exp (A * L) * N1 (y a) (y' a) /\
      dist (runY (calculateT eta_code) vm (if Rleb a b then l else rev l) E a b u Z) (y b) (y' b) <= exp (A * L) * (dist Z (y a) (y' a) + A * N1 (y a) (y' a) * sumf eps l)) as [F1 F2].
  { destruct (Rleb a b) eqn:AB; [apply Rleb_true in AB|apply Rleb_false in AB].
    - apply (Hfin (fun s => qq a b (smin s)) (fun s => qq a b (smax s))); [|left; reflexivity|].
      + pose proof (linked_up a b l lo hi Ch) as Q. rewrite (qq_low a b lo), (qq_high a b hi), Rmin_left, Rmax_right in Q by lra. exact Q.
      + intros s Hs. split; intro Hno; [apply qq_noop; auto|apply qq_up; auto].
    - apply (Hfin (fun s => qq a b (smax s)) (fun s => qq a b (smin s))); [|right; reflexivity|].
      + pose proof (linked_down a b l lo hi Ch) as Q. rewrite (qq_low a b lo), (qq_high a b hi), Rmin_right, Rmax_left in Q by lra. exact Q.
      + intros s Hs. split; intro Hno; [symmetry; apply qq_noop; auto|apply qq_down; auto; lra]. }
  set (N := N1 (y a) (y' a)) in *. assert (0 <= N) as HN0 by apply N1_nonneg. set (ea := H ^ ord u + tau + INR (length l) / 10 ^ 20 + pen) in *.
  assert (0 <= ea) as Hea by (unfold ea; lra). set (D0 := dist Z (y a) (y' a)) in *. assert (0 <= D0) as HD0 by apply N1_nonneg.
  split.
  - eapply Rle_trans; [exact F1|]. apply Rmult_le_compat_r; [exact HN0|]. rewrite <- (Rmult_1_r (exp (A * L))) at 1. apply Rmult_le_compat_l; lra.
  - eapply Rle_trans; [exact F2|]. rewrite (Rmult_assoc (exp (A * L)) (1 + A * (2 * L + 2))). apply Rmult_le_compat_l; [lra|].
    assert (A * N * sumf eps l <= A * N * ((2 * L + 2) * ea)) by (apply Rmult_le_compat_l; [apply Rmult_le_pos; assumption|exact Heps]).
    assert (0 <= N * ea) by (apply Rmult_le_pos; assumption). assert (0 <= A * (2 * L + 2) * D0) by (apply Rmult_le_pos; lra). lra.
Qed.
