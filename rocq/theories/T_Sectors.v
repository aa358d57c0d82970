(** Property theorems about sector construction and lookup: C01-C07, C57. *)
From Coq Require Import String ZArith QArith List Bool Lia Reals Lra Sorted Permutation Floats.
From Verif Require Import Base M_LegendreData M_Sectors M_Legendre S_Sectors P_Lookup P_Float P_Uniform P_Auto P_AutoR P_Eval.
Import ListNotations.

(** ** C01 Sector lookup.
    For any scalar type with a total preorder on its non-NaN values (reals; doubles, via
    [OrderLaws_F]), any partition into sectors with min <= max and any point [p] - NaN
    included - the lookup returns within (number of sectors) iterations, without an
    out-of-range read, either an index of a sector containing [p], or -1; and -1 exactly when
    [p] is not in the domain. *)
Theorem C01_find_sector {T} `{OrderLaws T} {P} (l : list (sector T P)) (lo hi p : T) (fuel : nat) :
  partition lo hi l -> (forall s, In s l -> sle (smin s) (smax s) = true) ->
  (length l <= fuel)%nat ->
  exists i, find_sector fuel l p = Ret i /\
    ((sle lo p && sle p hi = false /\ i = (-1)%Z) \/
     (sle lo p && sle p hi = true /\ (0 <= i < Z.of_nat (length l))%Z /\
      exists s, nth_error l (Z.to_nat i) = Some s /\ sle (smin s) p = true /\ sle p (smax s) = true)).
Proof.
  intros Hp Ho Hf. destruct (find_sector_correct l lo hi p fuel Hp) as [r [E R]]; auto.
  exists r. split; auto. destruct R as [[D [R [s [S1 S2]]]]|[D R]]; [right|left; auto].
  split; auto. split; auto. exists s. split; auto. unfold contains in S2. apply andb_prop in S2. tauto.
Qed.
(** Doubles, NaN points included: the same statement at [Scalar = double]. *)
Theorem C01_find_sector_double {P} (l : list (sector float P)) (lo hi p : float) :
  partition lo hi l -> (forall s, In s l -> (smin s <=? smax s)%float = true) ->
  exists i, find_sector (length l) l p = Ret i /\
    (((lo <=? p) && (p <=? hi) = false /\ i = (-1)%Z)%float \/
     ((lo <=? p) && (p <=? hi) = true /\ (0 <= i < Z.of_nat (length l))%Z /\
      exists s, nth_error l (Z.to_nat i) = Some s /\ (smin s <=? p) = true /\ (p <=? smax s) = true)%float).
Proof. intros A B. exact (@C01_find_sector float Scalar_F OrderLaws_F P l lo hi p (length l) A B (le_n _)). Qed.

Definition ex_secs : list (sector float unit) :=
  [mkSector 0 0.5 Dfwd tt; mkSector 0.5 0.75 Dbwd tt; mkSector 0.75 2 Dbwd tt]%float.
Example C01_ex : partition 0%float 2%float ex_secs /\ (forall s, In s ex_secs -> (smin s <=? smax s)%float = true)
  /\ find_sector 3 ex_secs 1.5%float = Ret 2%Z /\ find_sector 3 ex_secs nan = Ret (-1)%Z /\ find_sector 3 ex_secs 2.5%float = Ret (-1)%Z.
Proof.
  split; [split; [discriminate|repeat split]|]. split; [|vm_compute; auto].
  intros s [<-|[<-|[<-|[]]]]; reflexivity.
Qed.

(** ** C02 Uniform builder.  Any scalar type in which 1*h = h (all of R, Q, double). *)
Theorem C02_uniform {T} `{Scalar T} {P} (pay : T -> T -> dir -> P) (cmp : sector T P -> sector T P -> bool) (lo hi : T) (n : Z) (fuel : nat) :
  (forall h : T, smul (sofZ 1) h = h) ->
  (1 <= n)%Z -> (Z.to_nat n <= fuel)%nat ->
  exists l m, uniform_build pay cmp fuel n lo hi = Ret (l, m) /\
    Z.of_nat (length l) = n /\ partition lo hi l /\ directions_ok l m /\ (0 <= m < n)%Z.
Proof.
  intros H1 Hn Hf. destruct (uniform_build_correct pay cmp lo hi n fuel (H1 _) Hn Hf) as [l [m [A [B [C [D [E _]]]]]]].
  exists l, m. auto.
Qed.
Theorem C02_uniform_double {P} (pay : float -> float -> dir -> P) (cmp : sector float P -> sector float P -> bool) (lo hi : float) (n : Z) :
  (1 <= n)%Z ->
  exists l m, uniform_build pay cmp (Z.to_nat n) n lo hi = Ret (l, m) /\
    Z.of_nat (length l) = n /\ partition lo hi l /\ directions_ok l m /\ (0 <= m < n)%Z.
Proof. intros Hn. apply C02_uniform; auto. exact f_one_mul. Qed.
(** Over the reals the sectors are of equal width. *)
Theorem C02_uniform_width {P} (pay : R -> R -> dir -> P) cmp lo hi n l m :
  (1 <= n)%Z -> uniform_build pay cmp (Z.to_nat n) n lo hi = Ret (l, m) ->
  forall s, In s l -> (smax s - smin s = (hi - lo) / IZR n)%R.
Proof. intros Hn. apply uniform_build_widths; auto. Qed.
(** A non-positive number of steps is not a valid argument: negative throws, zero is undefined behaviour. *)
Theorem C02_nonpositive {T} `{Scalar T} {P} (pay : T -> T -> dir -> P) cmp (lo hi : T) fuel n :
  (n <= 0)%Z -> uniform_build pay cmp fuel n lo hi = Throw "std::length_error" \/
                uniform_build pay cmp fuel n lo hi = UB "sectors[0] of an empty vector".
Proof.
  intros Hn. unfold uniform_build. destruct (Z.ltb_spec n 0); auto. right. replace n with 0%Z by lia. reflexivity.
Qed.

(** ** C03 Automatic builder: any scalar type, any error estimate, comparison, pow, tolerance,
    jumps (even unsorted), whenever construction returns.  [fs] are the forward sectors, [bs]
    the backward ones; all end points coincide as values, except that at the matching point
    they are equal in the sense of [==] (for doubles: identical or +0/-0). *)
Theorem C03_automatic {T} `{Scalar T} {P} (pay : T -> T -> dir -> P) err cmp powf tol fuel jumps (lo hi : T) l m log :
  auto_build pay err cmp powf tol fuel jumps lo hi = Ret (l, m, log) ->
  (0 <= m < Z.of_nat (length l) - 1)%Z /\ directions_ok l m /\
  exists fs bs x y, l = fs ++ bs /\ Z.of_nat (length fs) = (m + 1)%Z /\ fs <> [] /\ bs <> [] /\
    chain lo x fs /\ chain y hi bs /\ seqb x y = true.
Proof.
  intros E. apply auto_build_free in E as [fs [bs [x [y [-> [Hf [Hb [-> [C1 [C2 [Q [D1 D2]]]]]]]]]]]].
  assert (0 < length fs)%nat by (destruct fs; simpl in *; [congruence|lia]).
  assert (0 < length bs)%nat by (destruct bs; simpl in *; [congruence|lia]).
  split; [rewrite app_length; lia|]. split.
  - intros k s K. destruct (Z.leb_spec (Z.of_nat k) (Z.of_nat (length fs) - 1)).
    + rewrite nth_error_app1 in K by lia. apply D1. eapply nth_error_In; eauto.
    + rewrite nth_error_app2 in K by lia. apply D2. eapply nth_error_In; eauto.
  - exists fs, bs, x, y. repeat (split; auto). lia.
Qed.
Theorem C03_automatic_real {P} (pay : R -> R -> dir -> P) err cmp powf tol fuel jumps (lo hi : R) l m log :
  auto_build pay err cmp powf tol fuel jumps lo hi = Ret (l, m, log) ->
  partition lo hi l /\ directions_ok l m /\ (0 <= m < Z.of_nat (length l) - 1)%Z.
Proof. apply auto_build_partition. Qed.

(** A run of the model over Q with V-independent oracles: error = width^2, tol 1/100. *)
Definition ex_err (s : sector Q unit) : Q := (Qred ((smax s - smin s) * (smax s - smin s)))%Q.
Definition ex_cmp (a b : sector Q unit) : bool := Qltb (smin a) (1 - smax b).
Definition ex_run := auto_build (fun _ _ _ => tt) ex_err ex_cmp (fun tol e => if Qltb tol e then 1#2 else 1)%Q (1#100)%Q 50 [1#3; 1#2]%Q 0%Q 1%Q.
Example C03_ex : match ex_run with Ret (l, m, _) => (length l = 29)%nat /\ (m < 28)%Z | _ => False end.
Proof. vm_compute. split; reflexivity. Qed.

(** ** C04 + C05: over the reals, for every error estimate and comparison, when jumps are
    strictly sorted and inside and pow is monotone as pow(tol/err, 1/(order-1)) is, the
    builder terminates; no sector contains a jump in its interior, every jump is an end point,
    every sector has positive width. *)
Theorem C04_jumps_are_boundaries {P} (pay : R -> R -> dir -> P) err cmp powf tol lo hi jumps fuel l m log :
  (forall e, tol < e -> powf tol e <= 1)%R -> (forall e, 0 < e -> e < tol / 2 -> 1 <= powf tol e)%R ->
  (lo < hi)%R -> StronglySorted Rlt jumps -> (forall j, In j jumps -> lo < j < hi)%R ->
  auto_build pay err cmp powf tol fuel jumps lo hi = Ret (l, m, log) ->
  forall j, In j jumps ->
    (exists s, In s l /\ (smin s = j \/ smax s = j)) /\ (forall s, In s l -> ~ (smin s < j < smax s)%R).
Proof.
  intros A B C D E F j Hj. destruct (auto_build_R pay err cmp powf tol A B lo hi jumps C E D) as [F0 [l' [m' [log' [G [H1 [_ H2]]]]]]].
  assert (K := auto_build_mono _ _ _ _ _ _ (Nat.max fuel F0) _ _ _ _ F (Nat.le_max_l _ _)).
  rewrite G in K by lia. injection K as -> -> ->. split; [apply H2; auto|].
  intros s Hs. apply H1; auto.
Qed.
Theorem C05_construction_terminates {P} (pay : R -> R -> dir -> P) err cmp powf tol lo hi jumps :
  (forall e, tol < e -> powf tol e <= 1)%R -> (forall e, 0 < e -> e < tol / 2 -> 1 <= powf tol e)%R ->
  (lo < hi)%R -> StronglySorted Rlt jumps -> (forall j, In j jumps -> lo < j < hi)%R ->
  exists F l m log, (forall fuel, (F <= fuel)%nat -> auto_build pay err cmp powf tol fuel jumps lo hi = Ret (l, m, log)) /\
    forall s, In s l -> (lo <= smin s /\ smin s < smax s /\ smax s <= hi)%R.
Proof.
  intros A B C D E. destruct (auto_build_R pay err cmp powf tol A B lo hi jumps C E D) as [F0 [l' [m' [log' [G [H1 [_ H2]]]]]]].
  exists F0, l', m', log'. split; auto. intros s Hs. destruct (H1 s Hs) as [H3 _]. exact H3.
Qed.
(** C03, tightened after seeded bugs s10 and s11: end points meeting is not enough for a
    partition, a sector could run backwards and be overlapped by its neighbours.  For jumps
    given in order, whatever the error estimates and comparisons say, every point of [lo, hi]
    that is not an end point lies in exactly one sector, and no sector leaves the interval. *)
Lemma chain_tiles {P} (l : list (sector R P)) : forall lo hi, chain lo hi l ->
  (forall s, In s l -> smin s < smax s)%R ->
  (lo <= hi)%R /\ (forall s, In s l -> lo <= smin s /\ smax s <= hi)%R /\
  (forall x, lo <= x <= hi -> ~ is_boundary x l -> l <> [] ->
    exists k s, nth_error l k = Some s /\ smin s < x < smax s /\
      forall k' s', nth_error l k' = Some s' -> smin s' < x < smax s' -> k' = k)%R.
Proof.
  induction l as [|s l IH]; intros lo hi C W; simpl in C.
  - subst. split; [lra|]. split; [intros s []|congruence].
  - destruct C as [C1 C2]. destruct (IH _ _ C2) as [I1 [I2 I3]]; [intros; apply W; right; auto|].
    assert (Ws : (smin s < smax s)%R) by (apply W; left; auto).
    split; [lra|]. split.
    + intros t [<-|Ht]; [lra|]. apply I2 in Ht. lra.
    + intros x Hx Nb _. assert (x <> smin s /\ x <> smax s)%R as [N1 N2].
      { split; intros ->; apply Nb; exists s; simpl; auto. }
      destruct (Rlt_le_dec x (smax s)) as [L|L].
      * exists 0%nat, s. split; auto. split; [lra|]. intros [|k'] s' E K; auto. exfalso. simpl in E.
        apply nth_error_In in E. apply I2 in E. lra.
      * destruct l as [|t l]; [simpl in C2; subst hi; lra|]. destruct (I3 x) as [k [t' [E1 [E2 E3]]]]; [lra| |congruence|].
        { intros [t' [K1 K2]]. apply Nb. exists t'. split; [right|]; auto. }
        exists (S k), t'. split; auto. split; auto. intros [|k'] s' E K; [|f_equal; eapply E3; eauto].
        simpl in E. injection E as <-. lra.
Qed.
Theorem C03_automatic_tiles {P} (pay : R -> R -> dir -> P) err cmp powf tol lo hi jumps fuel l m log :
  (forall e, tol < e -> powf tol e <= 1)%R -> (forall e, 0 < e -> e < tol / 2 -> 1 <= powf tol e)%R ->
  (lo < hi)%R -> StronglySorted Rlt jumps -> (forall j, In j jumps -> lo < j < hi)%R ->
  auto_build pay err cmp powf tol fuel jumps lo hi = Ret (l, m, log) ->
  (forall s, In s l -> lo <= smin s /\ smin s < smax s /\ smax s <= hi)%R /\
  (forall x, lo <= x <= hi -> ~ is_boundary x l ->
    exists k s, nth_error l k = Some s /\ smin s < x < smax s /\
      forall k' s', nth_error l k' = Some s' -> smin s' < x < smax s' -> k' = k)%R.
Proof.
  intros A B C D E F. destruct (auto_build_R pay err cmp powf tol A B lo hi jumps C E D) as [F0 [l' [m' [log' [G [H1 _]]]]]].
  assert (K := auto_build_mono _ _ _ _ _ _ (Nat.max fuel F0) _ _ _ _ F (Nat.le_max_l _ _)).
  rewrite G in K by lia. injection K as -> -> ->.
  assert (W : forall s, In s l -> (lo <= smin s /\ smin s < smax s /\ smax s <= hi)%R) by (intros s Hs; destruct (H1 s Hs) as [H3 _]; exact H3).
  split; auto. apply C03_automatic_real in F as [[Ne Ch] _]. intros x Hx Nb.
  destruct (chain_tiles l lo hi Ch) as [_ [_ T]]; [intros s Hs; apply W in Hs; tauto|]. apply T; auto.
Qed.
(** The step factor used by the code, for order 16 (Matslise) and 9 (Matscs), satisfies the
    two hypotheses on [powf], for every positive tolerance. *)
Theorem C05_code_factor (k tol : R) : (0 < k)%R -> (0 < tol)%R ->
  (forall e, tol < e -> Rpower (tol / e) k <= 1)%R /\ (forall e, 0 < e -> e < tol / 2 -> 1 <= Rpower (tol / e) k)%R.
Proof. intros Hk Ht. split; intros; [apply Rpower_shrink|apply Rpower_grow]; auto; lra. Qed.
(** Putting them together for the actual factor and any potential: *)
Theorem C05_matslise (V : R -> R) (err : sector R (list R) -> R) (tol lo hi : R) (jumps : list R) :
  (0 < tol)%R -> (lo < hi)%R -> StronglySorted Rlt jumps -> (forall j, In j jumps -> lo < j < hi)%R ->
  exists F l m log, (forall fuel, (F <= fuel)%nat ->
      auto_build (sector_vs V) err compare_vs (fun tol e => Rpower (tol / e) (1 / 15)) tol fuel jumps lo hi = Ret (l, m, log)) /\
    partition lo hi l /\ forall s, In s l -> (smin s < smax s)%R.
Proof.
  intros Ht Hl Hs Hj. destruct (C05_code_factor (1/15) tol) as [A B]; [lra|auto|].
  destruct (C05_construction_terminates (sector_vs V) err compare_vs (fun tol e => Rpower (tol / e) (1 / 15)) tol lo hi jumps A B Hl Hs Hj)
    as [F [l [m [log [E G]]]]].
  exists F, l, m, log. split; auto. split; [|intros s K; apply G in K; tauto].
  specialize (E F (le_n _)). apply C03_automatic_real in E. tauto.
Qed.
Example C05_ex : StronglySorted Rlt [1/3; 1/2]%R /\ forall j, In j [1/3; 1/2]%R -> (0 < j < 1)%R.
Proof. split; [repeat constructor; lra|]. intros j [<-|[<-|[]]]; lra. Qed.

(** ** C06 is false of the code: repeated jump positions.
    Python constructor on [0,1] with V(x) = 1 - x and jumps = [0.25, 0.25] over doubles (the
    sector's vs computed from the node tables with double arithmetic, the comparison is
    the code's).  The only stand-in is the error estimate: NaN on zero-width sectors (as the
    code's is: vs[i] divides by h^i = 0), and acceptable (= tol) on others. *)
Definition c06_err (s : sector float (list float)) : float := if (smin s <? smax s)%float then 0x1p-27%float else nan.
Definition c06_V (x : float) : float := (1 - x)%float.
Definition c06_build (fuel : nat) (jumps : list float) :=
  auto_build (sector_vs c06_V) c06_err compare_vs (fun _ _ => 1%float) 0x1p-27%float fuel (py_jumps 0%float 1%float jumps) 0%float 1%float.

(** On the zero-width sector the computed coefficients are 0.75 followed by infinities and NaN. *)
Example C06_zero_width_vs : forallb (fun v => negb (is_finite v)) (tl (sector_vs c06_V 0.25%float 0.25%float Dfwd)) = true.
Proof. vm_compute. reflexivity. Qed.
Lemma shrink_stop {T} `{Scalar T} {P} (pay : T -> T -> dir -> P) err powf tol fuel d st h a b s log :
  slt tol (err s) = false -> shrink_loop pay err powf tol fuel d st h a b s log = Ret (st, h, a, b, s, log).
Proof. intros E. destruct fuel; cbn [shrink_loop]; rewrite E; reflexivity. Qed.
Lemma grow_stop {T} `{Scalar T} {P} (pay : T -> T -> dir -> P) err powf tol fuel d left right st h a b e s log :
  slt e (sdiv tol (sofZ 2)) = false -> grow_loop pay err powf tol fuel d left right st h a b e s log = Ret (h, s, log).
Proof. intros E. destruct fuel; cbn [grow_loop]; rewrite E; reflexivity. Qed.
Lemma c06_stuck (pay : float -> float -> dir -> list float) fuel fs bs b0 hb bj log :
  compare_vs b0 (mk pay 0.25 0.25 Dfwd)%float = true ->
  (1 <? smin b0)%float = false -> (0.25 =? smin b0)%float = false -> (smin b0 <? 0.25)%float = false ->
  auto_loop pay c06_err compare_vs (fun _ _ => 1%float) 0x1p-27%float fuel 0%float 1%float fs bs
    (mk pay 0.25 0.25 Dfwd)%float b0 0%float hb [] bj log = Fuel.
Proof.
  intros C Q3 Q4 Q5. revert fs log; induction fuel as [|f IH]; intros fs log; cbn [auto_loop].
  - cbn [smax mk seqb Scalar_F]. rewrite Q4. reflexivity.
  - cbn [smax mk seqb Scalar_F]. rewrite Q4. fold (mk pay 0.25%float 0.25%float Dfwd). rewrite C.
    change (PrimFloat.eqb 0.25%float (next_fwd 1%float [])) with false. cbv iota. cbn [bind].
    assert (N : next_sector pay c06_err (fun _ _ => 1%float) 0x1p-27%float 0%float 0.25%float (std_min (smin b0) (next_fwd 1%float [])) Dfwd log
      = Ret (mk pay 0.25%float 0.25%float Dfwd, 0%float, log ++ [mk pay 0.25%float 0.25%float Dfwd])).
    { cbn [next_fwd]. unfold std_min. cbn [slt Scalar_F]. rewrite Q3.
      unfold next_sector. cbn [sadd ssub slt Scalar_F]. change (0.25 + 0)%float with 0.25%float.
      rewrite Q5. change (0.25 - 0.25)%float with 0%float.
      set (s := mk pay 0.25%float 0.25%float Dfwd).
      assert (Es : c06_err s = nan) by reflexivity.
      rewrite shrink_stop by (rewrite Es; reflexivity). cbn [bind].
      change (0 =? 0)%Z with true. cbv iota. rewrite Es, grow_stop by (vm_compute; reflexivity). reflexivity. }
    rewrite N. cbn [bind]. apply IH.
Qed.

Ltac ev x := let v := eval vm_compute in x in let E := fresh in assert (E : x = v) by (vm_compute; reflexivity); rewrite E; clear E.
(** Construction never returns: no number of iterations is enough. *)
Theorem C06_repeated_jump_hangs_refuted : forall fuel, c06_build fuel [0.25; 0.25]%float = Fuel.
Proof.
  intros fuel. unfold c06_build.
  assert (J : py_jumps 0%float 1%float [0.25; 0.25]%float = [0.25; 0.25]%float) by (vm_compute; reflexivity).
  rewrite J. unfold auto_build. cbv zeta.
  match goal with |- bind ?x _ = _ => ev x end. cbn [bind].
  match goal with |- bind ?x _ = _ => ev x end. cbn [bind].
  match goal with |- bind ?x _ = _ => enough (E : x = Fuel) by (rewrite E; reflexivity) end.
  destruct fuel as [|fuel]; [vm_compute; reflexivity|]. cbn [auto_loop].
  match goal with |- (if ?x then _ else _) = _ => ev x end. cbv iota.
  match goal with |- (if ?x then _ else _) = _ => ev x end. cbv iota.
  match goal with |- bind ?x _ = _ => ev x end. cbn [bind].
  match goal with |- bind ?x _ = _ => ev x end. cbn [bind].
  destruct fuel as [|fuel]; [vm_compute; reflexivity|]. cbn [auto_loop].
  match goal with |- (if ?x then _ else _) = _ => ev x end. cbv iota.
  match goal with |- (if ?x then _ else _) = _ => ev x end. cbv iota.
  match goal with |- bind ?x _ = _ => ev x end. cbn [bind].
  match goal with |- bind ?x _ = _ => ev x end. cbn [bind].
  match goal with |- auto_loop _ _ _ _ _ _ _ _ _ _ ?f0 ?b0 _ _ _ _ _ = _ =>
    assert (Ef : f0 = mk (sector_vs c06_V) 0.25%float 0.25%float Dfwd) by (vm_compute; reflexivity); rewrite Ef end.
  apply c06_stuck; vm_compute; reflexivity.
Qed.
(** The jump filter itself is right: it keeps exactly the interior jumps (any scalar type). *)
Theorem C06_filter_partial {T} `{Scalar T} (lo hi : T) jumps j :
  In j (py_jumps lo hi jumps) <-> In j jumps /\ slt lo j = true /\ slt j hi = true.
Proof.
  unfold py_jumps.
  assert (S : forall l (x : T), In x (sort_jumps l) <-> In x l).
  { assert (I : forall l (y x : T), In x (insert_sorted y l) <-> y = x \/ In x l).
    { induction l as [|z l IH]; simpl; intros y x; [tauto|]. destruct (slt y z); simpl; [tauto|]. rewrite IH. tauto. }
    induction l as [|z l IH]; simpl; intros x; [tauto|]. rewrite I, IH. tauto. }
  rewrite S, filter_In, andb_true_iff. tauto.
Qed.
(** ... and for distinct interior jumps in any order construction succeeds: what is missing is
    only the removal of duplicates. *)
Lemma insert_sorted_R (x : R) l : StronglySorted Rle l -> StronglySorted Rle (insert_sorted x l).
Proof.
  induction 1 as [|y l S IH F]; simpl; [repeat constructor|].
  unfold Rltb. destruct (Rlt_dec x y).
  - constructor; [constructor; auto|]. constructor; [lra|]. eapply Forall_impl; [|exact F]. simpl; intros; lra.
  - constructor; auto. rewrite Forall_forall in *. intros z Hz.
    assert (z = x \/ In z l).
    { clear -Hz. induction l as [|w l IH]; simpl in *; [intuition|]. unfold Rltb in *. destruct (Rlt_dec x w); simpl in *; intuition. }
    destruct H as [->|H]; [lra|auto].
Qed.
Lemma sort_R_sorted (l : list R) : StronglySorted Rle (sort_jumps l).
Proof. induction l; simpl; [constructor|]. apply insert_sorted_R; auto. Qed.
Lemma sort_R_perm (l : list R) : Permutation.Permutation (sort_jumps l) l.
Proof.
  induction l as [|x l IH]; simpl; [constructor|].
  assert (I : forall l (y : R), Permutation.Permutation (insert_sorted y l) (y :: l)).
  { induction l0 as [|z l0 IH0]; simpl; intros y; [reflexivity|]. destruct (Rltb y z); [reflexivity|].
    rewrite IH0. constructor. }
  rewrite I. constructor; auto.
Qed.
Lemma nodup_strict (l : list R) : NoDup l -> StronglySorted Rle l -> StronglySorted Rlt l.
Proof.
  induction 2 as [|x l S IH F]; [constructor|]. inversion H; subst. constructor; auto.
  rewrite Forall_forall in *. intros y Hy. specialize (F y Hy). destruct F as [F|F]; auto. subst; contradiction.
Qed.
Theorem C06_distinct_jumps_partial (V : R -> R) (err : sector R (list R) -> R) (tol lo hi : R) (jumps : list R) :
  (0 < tol)%R -> (lo < hi)%R -> NoDup jumps ->
  exists F l m log, (forall fuel, (F <= fuel)%nat ->
      auto_build (sector_vs V) err compare_vs (fun tol e => Rpower (tol / e) (1 / 15)) tol fuel (py_jumps lo hi jumps) lo hi = Ret (l, m, log)) /\ partition lo hi l /\ forall s, In s l -> (smin s < smax s)%R.
Proof.
  intros Ht Hl Hn. apply C05_matslise; auto.
  - apply nodup_strict; [|apply sort_R_sorted]. eapply Permutation.Permutation_NoDup; [symmetry; apply sort_R_perm|]. apply NoDup_filter; auto.
  - intros j Hj. apply C06_filter_partial in Hj as [_ [A B]]. apply Rltb_true in A, B. auto.
Qed.

(** ** C07 Where the potential is evaluated.
    Every point at which a sector [a,b] samples the potential is strictly inside (any n of the
    tables; Matslise uses 16, Matscs 9). *)
Theorem C07_samples_inside (n : nat) (a b x : R) : (a < b)%R -> In x (eval_points n a b) -> (a < x < b)%R.
Proof. apply eval_points_inside. Qed.
(** Hence the constructed problem cannot depend on the values of V at xmin, xmax, outside the
    domain or at the jumps: if V and W agree elsewhere, construction gives the same problem. *)
Theorem C07_automatic (V W : R -> R) (err : sector R (list R) -> R) powf (tol lo hi : R) (jumps : list R) fuel r :
  (forall e, tol < e -> powf tol e <= 1)%R -> (forall e, 0 < e -> e < tol / 2 -> 1 <= powf tol e)%R ->
  (lo < hi)%R -> StronglySorted Rlt jumps -> (forall j, In j jumps -> lo < j < hi)%R ->
  (forall x, (lo < x < hi)%R -> ~ In x jumps -> V x = W x) ->
  auto_build (sector_vs V) err compare_vs powf tol fuel jumps lo hi = Ret r ->
  auto_build (sector_vs W) err compare_vs powf tol fuel jumps lo hi = Ret r.
Proof.
  intros A B C D E F G. destruct r as [[l m] log]. eapply build_ext; eauto.
  destruct (auto_build_R (sector_vs V) err compare_vs powf tol A B lo hi jumps C E D) as [F0 [l' [m' [log' [K1 [_ [K2 _]]]]]]].
  assert (K := auto_build_mono _ _ _ _ _ _ (Nat.max fuel F0) _ _ _ _ G (Nat.le_max_l _ _)).
  rewrite K1 in K by lia. injection K as -> -> ->.
  intros s Hs. destruct (K2 s Hs) as [[W1 [W2 W3]] NJ]. apply sector_vs_ext. intros x Hx.
  apply eval_points_inside in Hx; auto. apply F; [lra|]. intros I. apply (NJ x I). auto.
Qed.
Theorem C07_uniform (V W : R -> R) (lo hi : R) (n : Z) fuel :
  (1 <= n)%Z -> (lo < hi)%R ->
  (forall x, (lo < x < hi)%R -> (forall i : Z, x <> lo + IZR i * ((hi - lo) / IZR n))%R -> V x = W x) ->
  uniform_build (sector_vs V) compare_vs fuel n lo hi = uniform_build (sector_vs W) compare_vs fuel n lo hi.
Proof.
  intros Hn Hl E.
  assert (Hn0 : (0 < IZR n)%R) by (apply IZR_lt; lia).
  set (h := ((hi - lo) / IZR n)%R) in *.
  assert (Hh : (0 < h)%R) by (unfold h; apply Rdiv_lt_0_compat; lra).
  assert (Hnh : (IZR n * h = hi - lo)%R) by (unfold h; field; lra).
  assert (G : forall i d a b, (0 <= i < n)%Z -> (a = lo + IZR i * h)%R -> (b = lo + (IZR i + 1) * h)%R -> sector_vs V a b d = sector_vs W a b d).
  { intros i d a b Hi -> ->. apply sector_vs_ext. intros x Hx. apply eval_points_inside in Hx; [|nra].
    assert (I0 : (0 <= IZR i)%R) by (apply IZR_le; lia). assert (I1 : (IZR i + 1 <= IZR n)%R) by (rewrite <- plus_IZR; apply IZR_le; lia).
    apply E; [nra|]. intros k ->.
    assert (K1 : (IZR i < IZR k)%R) by nra. assert (K2 : (IZR k < IZR (i + 1))%R) by (rewrite plus_IZR; nra).
    apply lt_IZR in K1, K2. lia. }
  apply ubuild_ext; auto; cbn [sadd smul ssub sdiv sofZ Scalar_R]; fold h.
  - intros i d Hi. apply (G i); auto. rewrite plus_IZR. reflexivity.
  - intros ->. apply (G 0%Z); [lia|lra|]. rewrite Rmult_1_l in Hnh. lra.
  - apply (G 0%Z); [lia|lra|lra].
  - apply (G (n - 1)%Z); [lia|reflexivity|]. rewrite minus_IZR. lra.
Qed.
Example C07_ex : forall x, (0 < x < 1)%R -> ~ In x [(1/2)%R] ->
  (fun x => if Rlt_dec x (1/2) then 0 else 1)%R x = (fun x => if Rle_dec x (1/2) then 0 else 1)%R x.
Proof. simpl. intros x Hx N. destruct (Rlt_dec x (1/2)), (Rle_dec x (1/2)); auto; try lra; exfalso; apply N; left; lra. Qed.

(** ** C57 *)
Theorem C57_potential_minimum {T} `{OrderLaws T} {P} (v0 : sector T P -> T) (l : list (sector T P)) :
  l <> [] -> (forall s, In s l -> ok (v0 s)) ->
  exists m, estimatePotentialMinimum v0 l = Ret m /\
    (exists s, In s l /\ v0 s = m) /\ (forall s, In s l -> sle m (v0 s) = true).
Proof. apply estimate_min_correct. Qed.
Example C57_ex : estimatePotentialMinimum (fun s : sector float unit => smax s) ex_secs = Ret 0.5%float.
Proof. vm_compute. reflexivity. Qed.

Print Assumptions C01_find_sector.
Print Assumptions C01_find_sector_double.
Print Assumptions C02_uniform.
Print Assumptions C02_uniform_double.
Print Assumptions C03_automatic.
Print Assumptions C03_automatic_real.
Print Assumptions C03_automatic_tiles.
Print Assumptions C04_jumps_are_boundaries.
Print Assumptions C05_matslise.
Print Assumptions C06_repeated_jump_hangs_refuted.
Print Assumptions C07_automatic.
Print Assumptions C07_uniform.
Print Assumptions C57_potential_minimum.
