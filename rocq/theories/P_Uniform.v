(** Proofs about UniformSectorBuilder. *)
From Coq Require Import String ZArith QArith List Bool Lia Reals Lra.
From Verif Require Import Base M_Sectors S_Sectors P_Lookup.
Import ListNotations.
Open Scope Z_scope.

Section Uniform.
Context {T : Type} `{Scalar T} {P : Type}.
Notation sec := (sector T P).
Variable pay : T -> T -> dir -> P.
Variable cmp : sec -> sec -> bool.
Notation mk := (mk pay).
Variables (lo hi : T) (n : Z).
Let h := sdiv (ssub hi lo) (sofZ n).
Hypothesis one_h : smul (sofZ 1) h = h.
Hypothesis n_ge2 : 2 <= n.

(** k-th grid point *)
Definition bound (k : Z) : T :=
  if k =? 0 then lo else if k =? n then hi else sadd lo (smul (sofZ k) h).

Definition gsec (d : dir) (k : Z) : sec := mk (bound k) (bound (k + 1)) d.
Definition gopt (i j : Z) (k : nat) : option sec :=
  let k := Z.of_nat k in
  if k <=? i then Some (gsec Dfwd k) else if j <=? k then Some (gsec Dbwd k) else None.

Lemma set_nth_map {A} (f g : nat -> A) s len i :
  (forall k, (s <= k < s + len)%nat -> k <> (s + i)%nat -> f k = g k) ->
  (i < len)%nat ->
  set_nth (map f (seq s len)) i (g (s + i)%nat) = map g (seq s len).
Proof.
  revert s i; induction len as [|len IH]; intros s i Hfg Hi; [lia|].
  simpl. destruct i as [|i]; simpl.
  - replace (s + 0)%nat with s by lia. f_equal. apply map_ext_in.
    intros k Hk. apply in_seq in Hk. apply Hfg; lia.
  - rewrite (Hfg s) by lia. f_equal. replace (s + S i)%nat with (S s + i)%nat by lia.
    apply IH; [|lia]. intros k Hk Hne. apply Hfg; lia.
Qed.

Lemma nth_map_seq {A} (f : nat -> A) len k : (k < len)%nat -> nth_error (map f (seq 0 len)) k = Some (f k).
Proof.
  intros Hk. rewrite nth_error_map. rewrite (nth_error_nth' _ 0%nat) by (rewrite seq_length; auto).
  rewrite seq_nth by auto. reflexivity.
Qed.

Lemma vget_gopt i j k : 0 <= k < n -> vget (map (gopt i j) (seq 0 (Z.to_nat n))) k = Ret (gopt i j (Z.to_nat k)).
Proof.
  intros Hk. unfold vget. destruct (Z.ltb_spec k 0); [lia|]. rewrite nth_map_seq by lia. reflexivity.
Qed.

Lemma uniform_loop_spec fuel i j :
  0 <= i -> i < j -> j < n -> (Z.to_nat (j - i) <= fuel)%nat ->
  exists m, i <= m < j /\
    uniform_loop pay cmp fuel lo h (map (gopt i j) (seq 0 (Z.to_nat n))) i j
    = Ret (map (gopt m (m + 1)) (seq 0 (Z.to_nat n)), m).
Proof.
  revert i j; induction fuel as [|f IH]; intros i j Hi Hij Hj Hf; [lia|].
  simpl uniform_loop. destruct (Z.eqb_spec (i + 1) j) as [<-|Hne].
  - exists i; split; [lia|reflexivity].
  - rewrite !vget_gopt by lia. simpl.
    assert (Gj : gopt i j (Z.to_nat j) = Some (gsec Dbwd j)).
    { unfold gopt. rewrite Z2Nat.id by lia. destruct (Z.leb_spec j i); [lia|]. destruct (Z.leb_spec j j); [auto|lia]. }
    assert (Gi : gopt i j (Z.to_nat i) = Some (gsec Dfwd i)).
    { unfold gopt. rewrite Z2Nat.id by lia. destruct (Z.leb_spec i i); [auto|lia]. }
    rewrite Gj, Gi. rewrite map_length, seq_length, Z2Nat.id by lia.
    assert (B : forall k, 0 < k -> k < n -> bound k = sadd lo (smul (sofZ k) h)).
    { intros k K1 K2. unfold bound. destruct (Z.eqb_spec k 0); [lia|]. destruct (Z.eqb_spec k n); [lia|auto]. }
    destruct (cmp (gsec Dbwd j) (gsec Dfwd i)).
    + destruct (Z.ltb_spec (i + 1) n); [|lia].
      assert (E : set_nth (map (gopt i j) (seq 0 (Z.to_nat n))) (Z.to_nat (i + 1))
        (Some (mk (sadd lo (smul (sofZ (i + 1)) h)) (sadd lo (smul (sofZ (i + 1 + 1)) h)) Dfwd))
        = map (gopt (i + 1) j) (seq 0 (Z.to_nat n))).
      { replace (Some _) with (gopt (i + 1) j (0 + Z.to_nat (i + 1))).
        - apply set_nth_map; [|lia]. intros k Hk Hk'. unfold gopt.
          destruct (Z.leb_spec (Z.of_nat k) i), (Z.leb_spec (Z.of_nat k) (i + 1)); auto; lia.
        - simpl. unfold gopt, gsec. rewrite Z2Nat.id by lia. destruct (Z.leb_spec (i + 1) (i + 1)); [|lia].
          rewrite !B by lia. reflexivity. }
      rewrite E. destruct (IH (i + 1) j) as [m [Hm R]]; try lia. exists m; split; [lia|exact R].
    + destruct (Z.leb_spec 0 (j - 1)); [|lia].
      assert (E : set_nth (map (gopt i j) (seq 0 (Z.to_nat n))) (Z.to_nat (j - 1))
        (Some (mk (sadd lo (smul (sofZ (j - 1)) h)) (sadd lo (smul (sofZ (j - 1 + 1)) h)) Dbwd))
        = map (gopt i (j - 1)) (seq 0 (Z.to_nat n))).
      { replace (Some _) with (gopt i (j - 1) (0 + Z.to_nat (j - 1))).
        - apply set_nth_map; [|lia]. intros k Hk Hk'. unfold gopt.
          destruct (Z.leb_spec (Z.of_nat k) i), (Z.leb_spec j (Z.of_nat k)), (Z.leb_spec (j - 1) (Z.of_nat k)); auto; lia.
        - simpl. unfold gopt, gsec. rewrite Z2Nat.id by lia.
          destruct (Z.leb_spec (j - 1) i); [lia|]. destruct (Z.leb_spec (j - 1) (j - 1)); [|lia].
          rewrite !B by lia. reflexivity. }
      rewrite E. destruct (IH i (j - 1)) as [m [Hm R]]; try lia. exists m; split; [lia|exact R].
Qed.

Definition gfull (m : Z) (k : nat) : sec := gsec (if Z.of_nat k <=? m then Dfwd else Dbwd) (Z.of_nat k).

Lemma init_vec :
  set_nth (set_nth (repeat (@None sec) (Z.to_nat n)) 0 (Some (mk lo (sadd lo h) Dfwd))) (Z.to_nat (n - 1))
     (Some (mk (sadd lo (smul (sofZ (n - 1)) h)) hi Dbwd))
  = map (gopt 0 (n - 1)) (seq 0 (Z.to_nat n)).
Proof.
  assert (R : forall s len, repeat (@None sec) len = map (fun _ => None) (seq s len)).
  { intros s len; revert s; induction len; simpl; intros; f_equal; auto. }
  rewrite (R 0%nat).
  assert (Some (mk lo (sadd lo h) Dfwd) = gopt 0 n (0 + 0)).
  { unfold gopt, gsec, bound. change (Z.of_nat (0 + 0)) with 0. change (0 <=? 0) with true. change (0 =? 0) with true.
    change (0 + 1) with 1. change (1 =? 0) with false. cbv iota.
    destruct (Z.eqb_spec 1 n); [lia|]. rewrite one_h. reflexivity. }
  rewrite H0. rewrite (set_nth_map (fun _ => None) (gopt 0 n)); [|intros|lia].
  2:{ unfold gopt. destruct (Z.leb_spec (Z.of_nat k) 0); [lia|]. destruct (Z.leb_spec n (Z.of_nat k)); [lia|auto]. }
  assert (Some (mk (sadd lo (smul (sofZ (n - 1)) h)) hi Dbwd) = gopt 0 (n - 1) (0 + Z.to_nat (n - 1))).
  { unfold gopt. simpl. rewrite Z2Nat.id by lia. destruct (Z.leb_spec (n - 1) 0); [lia|].
    destruct (Z.leb_spec (n - 1) (n - 1)); [|lia]. unfold gsec, bound.
    destruct (Z.eqb_spec (n - 1) 0); [lia|]. destruct (Z.eqb_spec (n - 1) n); [lia|].
    destruct (Z.eqb_spec (n - 1 + 1) 0); [lia|]. destruct (Z.eqb_spec (n - 1 + 1) n); [|lia]. reflexivity. }
  rewrite H1. apply set_nth_map; [|lia]. intros k Hk Hk'. unfold gopt.
  destruct (Z.leb_spec (Z.of_nat k) 0); auto. destruct (Z.leb_spec n (Z.of_nat k)), (Z.leb_spec (n - 1) (Z.of_nat k)); auto; lia.
Qed.

Lemma uniform_build_closed fuel :
  (Z.to_nat n <= fuel)%nat ->
  exists m, 0 <= m < n - 1 /\
    uniform_build pay cmp fuel n lo hi = Ret (map (gfull m) (seq 0 (Z.to_nat n)), m).
Proof.
  intros Hf. unfold uniform_build. fold h.
  destruct (Z.ltb_spec n 0); [lia|]. destruct (Z.eqb_spec n 0); [lia|]. destruct (Z.eqb_spec n 1); [lia|].
  rewrite init_vec. destruct (uniform_loop_spec fuel 0 (n - 1)) as [m [Hm R]]; try lia.
  rewrite R. simpl. exists m; split; [lia|].
  match goal with |- match ?f ?l with _ => _ end = _ => set (F := f); assert (E : forall s len, F (map (gopt m (m + 1)) (seq s len)) = Some (map (gfull m) (seq s len))) end.
  { intros s len; revert s; induction len as [|len IH]; intros s; [reflexivity|].
    simpl map. simpl F. rewrite IH. unfold gopt at 1, gfull at 2.
    destruct (Z.leb_spec (Z.of_nat s) m); auto.
    destruct (Z.leb_spec (m + 1) (Z.of_nat s)); [auto|lia]. }
  rewrite E. reflexivity.
Qed.

Lemma gfull_chain m s len : chain (bound (Z.of_nat s)) (bound (Z.of_nat (s + len))) (map (gfull m) (seq s len)).
Proof.
  revert s; induction len as [|len IH]; intros s; simpl.
  - f_equal; lia.
  - split; auto. replace (Z.of_nat s + 1) with (Z.of_nat (S s)) by lia.
    replace (s + S len)%nat with (S s + len)%nat by lia. apply IH.
Qed.
End Uniform.

Section UniformThm.
Context {T : Type} `{Scalar T} {P : Type}.
Notation sec := (sector T P).

Theorem uniform_build_correct (pay : T -> T -> dir -> P) (cmp : sec -> sec -> bool) (lo hi : T) (n : Z) fuel :
  smul (sofZ 1) (sdiv (ssub hi lo) (sofZ n)) = sdiv (ssub hi lo) (sofZ n) ->
  1 <= n -> (Z.to_nat n <= fuel)%nat ->
  exists l m, uniform_build pay cmp fuel n lo hi = Ret (l, m) /\
    Z.of_nat (length l) = n /\ partition lo hi l /\ directions_ok l m /\ 0 <= m < n /\ (2 <= n -> m + 1 < n).
Proof.
  intros H1 Hn Hf. destruct (Z.eq_dec n 1) as [->|Hne].
  - exists [mk pay lo hi Dfwd], 0. unfold uniform_build. simpl. repeat split; try lia; auto; [discriminate|].
    intros k s K. destruct k as [|k]; simpl in K; [injection K as <-; reflexivity|destruct k; discriminate].
  - destruct (uniform_build_closed pay cmp lo hi n H1 ltac:(lia) fuel Hf) as [m [Hm R]].
    eexists _, m. split; [exact R|]. split; [rewrite map_length, seq_length; lia|].
    split; [|split; [|lia]].
    + split.
      * destruct (Z.to_nat n) eqn:E; [lia|]. discriminate.
      * pose proof (gfull_chain pay lo hi n m 0 (Z.to_nat n)) as C. simpl in C.
        rewrite Z2Nat.id in C by lia. unfold bound at 1 2 in C. simpl in C.
        rewrite Z.eqb_refl in C. destruct (Z.eqb_spec n 0); [lia|]. auto.
    + intros k s K. assert ((k < Z.to_nat n)%nat).
      { assert (nth_error (map (gfull pay lo hi n m) (seq 0 (Z.to_nat n))) k <> None) by congruence.
        apply nth_error_Some in H0. rewrite map_length, seq_length in H0. auto. }
      rewrite nth_map_seq in K by auto. injection K as <-. reflexivity.
Qed.

(** widths, over the reals *)
End UniformThm.

Theorem uniform_build_widths {P} (pay : R -> R -> dir -> P) cmp lo hi n fuel l m :
  1 <= n -> (Z.to_nat n <= fuel)%nat ->
  uniform_build pay cmp fuel n lo hi = Ret (l, m) ->
  forall s, In s l -> (smax s - smin s = (hi - lo) / IZR n)%R.
Proof.
  intros Hn Hf E s Hs.
  destruct (Z.eq_dec n 1) as [->|Hne].
  - unfold uniform_build in E. simpl in E. injection E as <- <-. destruct Hs as [<-|[]]. simpl. lra.
  - assert (H1 : smul (sofZ 1) (sdiv (ssub hi lo) (sofZ n)) = sdiv (ssub hi lo) (sofZ n)) by (simpl; lra).
    destruct (uniform_build_closed pay cmp lo hi n H1 ltac:(lia) fuel Hf) as [m' [Hm R]].
    rewrite R in E. injection E as <- <-. apply in_map_iff in Hs as [k [<- Hk]].
    apply in_seq in Hk. unfold gfull, gsec, bound. simpl.
    assert (IZR n <> 0)%R by (apply not_0_IZR; lia).
    destruct (Z.eqb_spec (Z.of_nat k) 0), (Z.eqb_spec (Z.of_nat k) n), (Z.eqb_spec (Z.of_nat k + 1) 0),
       (Z.eqb_spec (Z.of_nat k + 1) n); try lia.
    + rewrite e. simpl. lra.
    + replace (Z.of_nat k) with (n - 1) by lia. rewrite minus_IZR. field. auto.
    + rewrite plus_IZR. lra.
Qed.
