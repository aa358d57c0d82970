(** Proofs about the eigenvalue search of M_Search: termination (any scalar type), ordering. *)
From Coq Require Import String ZArith QArith Reals List Bool Lia Lra Permutation Sorted.
From Verif Require Import Base M_Search.
Import ListNotations.
Open Scope Z_scope.

Section Any.
Context {T : Type} `{Scalar T} `{Conv T}.
Variable me : T -> bool -> T * T * T.
Variable tol : T.

(** ** Newton *)
Lemma newton_loop_total f : forall i E u, 0 <= i -> 20 - i <= Z.of_nat f -> (0 < f)%nat ->
  exists E' th pts, newton_loop me tol f i E u = Ret (E', th, pts) /\ (Z.of_nat (length pts) <= Z.max 1 (20 - i)).
Proof.
  induction f as [|f IH]; intros i E u Hi Hf Hp; [lia|].
  cbn [newton_loop]. destruct (me E u) as [[er der] th].
  destruct (Z.ltb_spec (i + 1) 20).
  - destruct (slt tol (sabs (sdiv er der))); cbn [andb].
    + destruct (IH (i + 1) (ssub E (sdiv er der)) u) as (E' & t & p & -> & L); [lia|lia|lia|].
      cbn [bind fst snd]. do 3 eexists. split; [reflexivity|]. cbn [length]. lia.
    + do 3 eexists. split; [reflexivity|]. cbn [length]. lia.
  - cbn [andb]. do 3 eexists. split; [reflexivity|]. cbn [length]. lia.
Qed.
Lemma newton_not_fuel E u : newton me tol E u <> Fuel.
Proof.
  unfold newton. destruct (newton_loop_total 20 0 E u) as (E' & t & p & -> & _); [lia|lia|lia|].
  cbn [bind]. unfold oint. destruct (iround (sdiv t spi)); cbn [bind]; discriminate.
Qed.
Lemma newton_index E u r : newton me tol E u = Ret r -> 0 <= fst r.
Proof.
  unfold newton. destruct (newton_loop me tol 20 0 E u) as [[[E' t] p]|s|s|]; cbn [bind]; try discriminate.
  unfold oint. destruct (iround (sdiv t spi)); cbn [bind]; try discriminate.
  intros K; injection K as <-. cbn [fst]. destruct (Z.ltb_spec z 0); lia.
Qed.

(** ** The queue *)
(** Largest number of turns, probes and leaves an item of depth d can cause. *)
Definition wt (it : item T) : Z := 2 ^ (32 - Z.min 31 (dep_ it)) - 1.
Definition wp (it : item T) : Z := 2 ^ (31 - Z.min 31 (dep_ it)) - 1.
Definition wl (it : item T) : Z := 2 ^ (31 - Z.min 31 (dep_ it)).
Definition sumZ (f : item T -> Z) (l : list (item T)) : Z := fold_right (fun x s => f x + s) 0 l.
Lemma sumZ_app f l l' : sumZ f (l ++ l') = sumZ f l + sumZ f l'.
Proof. unfold sumZ. induction l; cbn [fold_right app]; [lia|]. rewrite IHl. lia. Qed.
Lemma sumZ_cons f a l : sumZ f (a :: l) = f a + sumZ f l.
Proof. reflexivity. Qed.

Lemma pow_step d : 0 <= d <= 30 -> 2 ^ (32 - Z.min 31 d) = 2 * 2 ^ (32 - Z.min 31 (d + 1)).
Proof.
  intros. rewrite !Z.min_r by lia. replace (32 - d) with (1 + (32 - (d + 1))) by lia.
  rewrite Z.pow_add_r by lia. reflexivity.
Qed.
Lemma pow_step' d : 0 <= d <= 30 -> 2 ^ (31 - Z.min 31 d) = 2 * 2 ^ (31 - Z.min 31 (d + 1)).
Proof.
  intros. rewrite !Z.min_r by lia. replace (31 - d) with (1 + (31 - (d + 1))) by lia.
  rewrite Z.pow_add_r by lia. reflexivity.
Qed.
Lemma w_pos it : 1 <= wt it /\ 0 <= wp it /\ 1 <= wl it.
Proof.
  unfold wt, wp, wl. set (d := Z.min 31 (dep_ it)).
  assert (d <= 31) by (unfold d; lia).
  assert (2 ^ 1 <= 2 ^ (32 - d)) by (apply Z.pow_le_mono_r; lia).
  assert (2 ^ 0 <= 2 ^ (31 - d)) by (apply Z.pow_le_mono_r; lia). lia.
Qed.

Lemma step_push Imin Imax it c l : 0 <= dep_ it -> step me Imin Imax it = Ret (Push c l) ->
  Forall (fun x => 0 <= dep_ x) l /\ sumZ wt l < wt it /\ 1 + sumZ wp l <= wp it /\ sumZ wl l <= wl it.
Proof.
  destruct it as [a ta b tb d]. cbn [dep_]. intros Hd. unfold step.
  destruct (oint (iceil ta)) as [ia|s|s|]; cbn [bind]; try discriminate.
  destruct (oint (iceil tb)) as [ib|s|s|]; cbn [bind]; try discriminate.
  destruct (sle tb ta || (ia =? ib) || (ib <=? Imin) || (Imax <=? ia)); [discriminate|].
  set (cc := if (ia + 1 <? ib) || _ || _ then _ else _).
  destruct (Z.ltb_spec 30 d) as [L|L].
  { rewrite orb_true_r. discriminate. }
  destruct (slt (ssub tb ta) (sofQ (1 # 100)) && (3 <? d)); cbn [orb]; [discriminate|].
  destruct (snan (ang me cc)); [discriminate|].
  pose proof (pow_step d ltac:(lia)) as P. pose proof (pow_step' d ltac:(lia)) as P'.
  assert (2 ^ 1 <= 2 ^ (32 - Z.min 31 (d + 1))) by (apply Z.pow_le_mono_r; lia).
  assert (2 ^ 0 <= 2 ^ (31 - Z.min 31 (d + 1))) by (apply Z.pow_le_mono_r; lia).
  assert (D : 1 + d = d + 1) by lia.
  destruct (ia + 1 <? ib).
  - intros K; apply (f_equal (fun r => match r with Ret (Push _ l) => l | _ => [] end)) in K; cbv beta iota in K; subst l. split; [repeat (apply Forall_cons; [cbn [dep_]; lia|]); apply Forall_nil|].
    unfold sumZ, wt, wp, wl. cbn [fold_right dep_]. rewrite D. lia.
  - destruct (slt (sabs _) _); [discriminate|].
    destruct (slt (smul _ _) _); intros K; apply (f_equal (fun r => match r with Ret (Push _ l) => l | _ => [] end)) in K; cbv beta iota in K; subst l;
      (split; [repeat (apply Forall_cons; [cbn [dep_]; lia|]); apply Forall_nil|]);
      unfold sumZ, wt, wp, wl; cbn [fold_right dep_]; lia.
Qed.


Lemma step_cases Imin Imax it act : step me Imin Imax it = Ret act -> 0 <= dep_ it ->
  match act with Drop _ => 1 <= wp it | _ => True end.
Proof.
  destruct it as [a ta b tb d]. cbn [dep_]. intros Es Hd. unfold step in Es.
  destruct (oint (iceil ta)) as [ia|s|s|]; cbn [bind] in Es; try discriminate.
  destruct (oint (iceil tb)) as [ib|s|s|]; cbn [bind] in Es; try discriminate.
  destruct (sle tb ta || (ia =? ib) || (ib <=? Imin) || (Imax <=? ia)); [injection Es as <-; exact I|].
  set (cc := if (ia + 1 <? ib) || _ || _ then _ else _) in Es.
  destruct (Z.ltb_spec 30 d) as [L|L].
  { rewrite orb_true_r in Es. injection Es as <-; exact I. }
  assert (W : 1 <= wp (mkItem a ta b tb d)).
  { unfold wp; cbn [dep_]. assert (2 ^ 1 <= 2 ^ (31 - Z.min 31 d)) by (apply Z.pow_le_mono_r; lia). lia. }
  destruct act; auto.
Qed.
Lemma step_not_fuel Imin Imax it : step me Imin Imax it <> Fuel.
Proof.
  intros Es. destruct it as [a ta b tb d]. unfold step in Es.
  unfold oint in Es. destruct (iceil ta) as [ia|], (iceil tb) as [ib|]; cbn [bind] in Es; try discriminate.
  repeat match type of Es with (if ?b then _ else _) = _ => destruct b; try discriminate end.
Qed.
Lemma sumZ_nonneg l : 0 <= sumZ wt l /\ 0 <= sumZ wp l /\ 0 <= sumZ wl l.
Proof. unfold sumZ. induction l as [|a l IH]; cbn [fold_right]; [lia|]. pose proof (w_pos a). lia. Qed.

Lemma bisect_bounds fuel : forall Imin Imax q, Forall (fun x => 0 <= dep_ x) q ->
  sumZ wt q <= Z.of_nat fuel ->
  bisect me fuel Imin Imax q <> Fuel /\
  forall r, bisect me fuel Imin Imax q = Ret r ->
    Z.of_nat (length (fst r)) <= sumZ wl q /\ Z.of_nat (length (snd r)) <= sumZ wp q.
Proof.
  induction fuel as [|f IH]; intros Imin Imax q Hq Hw.
  - destruct q as [|it q]; cbn [bisect].
    + split; [discriminate|]. intros r K; injection K as <-. unfold sumZ; cbn; lia.
    + rewrite sumZ_cons in Hw; pose proof (w_pos it). pose proof (sumZ_nonneg q). lia.
  - destruct q as [|it q]; cbn [bisect].
    + split; [discriminate|]. intros r K; injection K as <-. unfold sumZ; cbn; lia.
    + inversion Hq as [|? ? Hd Hq']; subst. rewrite sumZ_cons in Hw. pose proof (w_pos it) as (W1 & W2 & W3).
      rewrite !sumZ_cons.
      destruct (step me Imin Imax it) as [act|s|s|] eqn:Es; cbn [bind];
        try (split; [discriminate|]; intros r K; discriminate).
      * pose proof (step_cases _ _ _ _ Es Hd) as SC.
        destruct act as [|c|c|c l|c].
        1: { destruct (IH Imin Imax q Hq' ltac:(lia)) as [A B]. split; [exact A|]. intros r K. specialize (B r K). lia. }
        3: { destruct (step_push _ _ _ _ _ Hd Es) as (F & S1 & S2 & S3).
             destruct (IH Imin Imax (q ++ l)) as [A B]; [apply Forall_app; auto|rewrite sumZ_app; lia|].
             destruct (bisect me f Imin Imax (q ++ l)) as [r0|s|s|]; cbn [bind]; try (split; [discriminate|]; intros r K; discriminate); [|congruence].
             split; [discriminate|]. intros r K; injection K as <-. specialize (B r0 eq_refl). rewrite !sumZ_app in B. cbn [fst snd length]. lia. }
        all: destruct (IH Imin Imax q Hq' ltac:(lia)) as [A B]; destruct (bisect me f Imin Imax q) as [r0|s|s|]; cbn [bind]; try (split; [discriminate|]; intros r K; discriminate); [|congruence];
             split; [discriminate|]; intros r K; injection K as <-; specialize (B r0 eq_refl); cbn [fst snd length]; lia.
      * exfalso. exact (step_not_fuel _ _ _ Es).
Qed.

Lemma mapM_not_fuel {A B} (f : A -> res B) l : (forall x, f x <> Fuel) -> mapM f l <> Fuel.
Proof.
  intros Hf. induction l as [|x l IH]; cbn [mapM]; [discriminate|].
  specialize (Hf x). destruct (f x); cbn [bind]; try discriminate; [|congruence].
  destruct (mapM f l); cbn [bind]; try discriminate; congruence.
Qed.
Lemma mapM_ret {A B} (f : A -> res B) l r : mapM f l = Ret r <-> Forall2 (fun x y => f x = Ret y) l r.
Proof.
  split; revert r; induction l as [|x l IH]; intros r; cbn [mapM].
  - intros K; injection K as <-; constructor.
  - destruct (f x) eqn:E; cbn [bind]; try discriminate. destruct (mapM f l) as [ys|s|s|] eqn:Em; cbn [bind]; try discriminate.
    intros K; injection K as <-. constructor; auto.
  - intros F; inversion F; reflexivity.
  - intros F; inversion F; subst. rewrite H3. cbn [bind]. rewrite (IH _ H5). reflexivity.
Qed.

Lemma compute_not_fuel fuel Emin Emax Imin Imax : 2 ^ 32 <= Z.of_nat fuel ->
  computeEigenvalues me tol fuel Emin Emax Imin Imax <> Fuel.
Proof.
  intros Hf. unfold computeEigenvalues. destruct (Imin <? 0); [discriminate|]. destruct (Imax <? Imin); [discriminate|].
  set (q := [_]). destruct (bisect_bounds fuel Imin Imax q) as [A B].
  { apply Forall_cons; [cbn [dep_]; lia|apply Forall_nil]. } { unfold q, sumZ, wt; cbn [fold_right dep_]. change (Z.min 31 0) with 0. lia. }
  destruct (bisect me fuel Imin Imax q) as [r|s|s|]; cbn [bind]; try discriminate; [|congruence].
  pose proof (mapM_not_fuel (fun lf => newton me tol (lc lf) true) (fst r) (fun x => newton_not_fuel _ _)) as M.
  destruct (mapM (fun lf : leaf T => newton me tol (lc lf) true) (fst r)); cbn [bind]; try discriminate. congruence.
Qed.

(** ** Sorting *)
Lemma bisect_mono f : forall f' Imin Imax q, (f <= f')%nat -> bisect me f Imin Imax q <> Fuel ->
  bisect me f' Imin Imax q = bisect me f Imin Imax q.
Proof.
  induction f as [|f IH]; intros f' Imin Imax q L N.
  - destruct q; cbn [bisect] in *; [destruct f'; reflexivity|congruence].
  - destruct f' as [|f']; [lia|]. destruct q as [|it q]; cbn [bisect] in *; [reflexivity|].
    destruct (step me Imin Imax it) as [act|s|s|]; cbn [bind] in *; try reflexivity.
    destruct act as [|c|c|c l|c];
      match goal with |- context [bisect me f Imin Imax ?Q] => 
        rewrite (IH f' Imin Imax Q ltac:(lia)); [reflexivity|];
        intros K; apply N; rewrite K; reflexivity end.
Qed.
Lemma compute_mono f f' Emin Emax Imin Imax : (f <= f')%nat -> computeEigenvalues me tol f Emin Emax Imin Imax <> Fuel ->
  computeEigenvalues me tol f' Emin Emax Imin Imax = computeEigenvalues me tol f Emin Emax Imin Imax.
Proof.
  intros L. unfold computeEigenvalues. destruct (Imin <? 0); [reflexivity|]. destruct (Imax <? Imin); [reflexivity|].
  intros N. rewrite (bisect_mono f f'); auto. intros K. apply N. rewrite K. reflexivity.
Qed.
Lemma insert_perm (x : Z * T) l : Permutation (insert x l) (x :: l).
Proof.
  induction l as [|y r IH]; cbn [insert]; [reflexivity|]. destruct (pair_lt x y); [reflexivity|].
  rewrite IH. apply perm_swap.
Qed.
Lemma isort_perm (l : list (Z * T)) : Permutation (isort l) l.
Proof. induction l; cbn [isort]; [reflexivity|]. rewrite insert_perm. constructor; auto. Qed.
Lemma insert_sorted (x : Z * T) l : StronglySorted (fun a b => fst a <= fst b) l -> StronglySorted (fun a b => fst a <= fst b) (insert x l).
Proof.
  induction 1 as [|y r S IH F]; cbn [insert]; [repeat constructor|].
  destruct (pair_lt x y) eqn:E.
  - assert (L : fst x <= fst y). { unfold pair_lt in E. destruct (Z.ltb_spec (fst x) (fst y)); [lia|]. destruct (Z.ltb_spec (fst y) (fst x)); [discriminate E|lia]. }
    constructor; [constructor; auto|]. constructor; auto. eapply Forall_impl; [|exact F]. cbn; intros; lia.
  - assert (L : fst y <= fst x). { unfold pair_lt in E. destruct (Z.ltb_spec (fst x) (fst y)); [discriminate E|lia]. }
    constructor; auto. rewrite insert_perm. constructor; auto.
Qed.
Lemma isort_sorted (l : list (Z * T)) : StronglySorted (fun a b => fst a <= fst b) (isort l).
Proof. induction l; cbn [isort]; [constructor|]. apply insert_sorted; auto. Qed.
End Any.
