(** C56: the Python constructor of coupled problems. *)
From Coq Require Import String ZArith QArith List Bool Lia Reals Lra Sorted Permutation Floats.
From Verif Require Import Base M_LegendreData M_Sectors M_Legendre S_Sectors P_Lookup P_Float P_Uniform P_Auto P_AutoR P_Eval T_Sectors M_Python.
Import ListNotations.

(** The automatic builder never throws. *)
Section NoThrow.
Context {T : Type} `{Scalar T} {P : Type}.
Variables (pay : T -> T -> dir -> P) (err : sector T P -> T) (cmp : sector T P -> sector T P -> bool) (powf : T -> T -> T) (tol : T).
Definition quiet {A} (r : res A) : Prop := match r with Throw _ => False | _ => True end.
Lemma quiet_bind {A B} (r : res A) (k : A -> res B) : quiet r -> (forall a, quiet (k a)) -> quiet (bind r k).
Proof. destruct r; cbn; auto. Qed.
Lemma quiet_shrink fuel d st h a b s log : quiet (shrink_loop pay err powf tol fuel d st h a b s log).
Proof. revert st h a b s log. induction fuel as [|f IH]; intros; cbn [shrink_loop]; cbv zeta; destruct (_ && _); cbn; auto. Qed.
Lemma quiet_grow fuel d l r st h a b e s log : quiet (grow_loop pay err powf tol fuel d l r st h a b e s log).
Proof.
  revert st h a b e s log. induction fuel as [|f IH]; intros; cbn [grow_loop]; (destruct (_ && _); [|exact I]); [exact I|].
  match goal with |- quiet (let '(_, _) := ?p in _) => destruct p as [x y] end. cbv zeta. destruct (slt tol _); [exact I|]. apply IH.
Qed.
Lemma quiet_next h l r d log : quiet (next_sector pay err powf tol h l r d log).
Proof.
  unfold next_sector. cbv zeta. match goal with |- quiet (let '(_, _) := ?p in _) => destruct p as [x y] end.
  apply quiet_bind; [apply quiet_shrink|]. intros [[[[[st h'] x'] y'] s] lg]. destruct (st =? 0)%Z; [|exact I].
  apply quiet_bind; [apply quiet_grow|]. intros [[h2 s2] l2]. exact I.
Qed.
Lemma quiet_loop fuel lo hi fs bs f0 b0 hf hb fj bj log : quiet (auto_loop pay err cmp powf tol fuel lo hi fs bs f0 b0 hf hb fj bj log).
Proof.
  revert fs bs f0 b0 hf hb fj bj log. induction fuel as [|f IH]; intros; cbn [auto_loop]; (destruct (seqb _ _); [exact I|]); [exact I|].
  destruct (cmp b0 f0).
  - apply quiet_bind; [destruct (seqb _ _); [destruct fj|]; exact I|]. intros fj'. apply quiet_bind; [apply quiet_next|]. intros [[s h'] lg]. apply IH.
  - apply quiet_bind; [destruct (seqb _ _); [destruct bj|]; exact I|]. intros fj'. apply quiet_bind; [apply quiet_next|]. intros [[s h'] lg]. apply IH.
Qed.
Lemma quiet_auto fuel jumps lo hi : quiet (auto_build pay err cmp powf tol fuel jumps lo hi).
Proof.
  unfold auto_build. cbv zeta. apply quiet_bind; [apply quiet_next|]. intros [[f0 hf] lg]. apply quiet_bind; [apply quiet_next|]. intros [[b0 hb] lg2].
  apply quiet_bind; [apply quiet_loop|]. intros [[fs bs] lg3]. exact I.
Qed.
End NoThrow.

Lemma uniform_loop_quiet {T} `{Scalar T} {P} (pay : T -> T -> dir -> P) cmp fuel lo h v i j : quiet (uniform_loop pay cmp fuel lo h v i j).
Proof.
  revert v i j. induction fuel as [|f IH]; intros; cbn [uniform_loop]; [exact I|].
  destruct (_ =? _)%Z; [exact I|]. apply quiet_bind; [unfold vget; destruct (_ <? _)%Z; [exact I|]; destruct (nth_error _ _); exact I|]. intros sj.
  apply quiet_bind; [unfold vget; destruct (_ <? _)%Z; [exact I|]; destruct (nth_error _ _); exact I|]. intros si.
  destruct sj as [sj|]; [|exact I]. destruct si as [si|]; [|exact I]. destruct (cmp sj si); cbv zeta.
  - destruct (_ <? _)%Z; [apply IH|exact I].
  - destruct (_ <=? _)%Z; [apply IH|exact I].
Qed.
Lemma uniform_throw {T} `{Scalar T} {P} (pay : T -> T -> dir -> P) cmp fuel n (lo hi : T) m :
  uniform_build pay cmp fuel n lo hi = Throw m -> m = "std::length_error"%string.
Proof.
  unfold uniform_build. destruct (Z.ltb_spec n 0); [injection 1 as <-; auto|]. destruct (Z.eqb_spec n 0); [discriminate|]. destruct (Z.eqb_spec n 1); [discriminate|].
  cbv zeta. match goal with |- bind ?x _ = _ -> _ => pose proof (uniform_loop_quiet pay cmp fuel lo (sdiv (ssub hi lo) (sofZ n))
     (set_nth (set_nth (repeat None (Z.to_nat n)) 0 (Some (mk pay lo (sadd lo (sdiv (ssub hi lo) (sofZ n))) Dfwd))) (Z.to_nat (n - 1))
        (Some (mk pay (sadd lo (smul (sofZ (n - 1)) (sdiv (ssub hi lo) (sofZ n)))) hi Dbwd))) 0 (n - 1)) as Q; destruct x as [[v i]|m0|m0|] eqn:E end; cbn [bind]; try discriminate.
  - match goal with |- (match ?x with _ => _ end) = _ -> _ => destruct x end; discriminate.
  - destruct Q.
Qed.

(** ** C56 *)

(** The three documented rejections, each with its message, and no others, for all doubles (NaN included) and all steps.
    "set" means different from -1. *)
Theorem C56_rejects {P} (pay : float -> float -> dir -> P) err cmp powf fuel (lo hi tol : float) (steps : Z) (jumps : list float) :
  let r := pyscs_new pay err cmp powf fuel lo hi steps tol jumps in
  let steps_set := steps <> (-1)%Z in let tol_set := (tol =? -1)%float = false in
  (steps_set -> tol_set -> r = Throw msg_both) /\
  (~ steps_set -> ~ tol_set -> r = Throw msg_none) /\
  (steps_set -> ~ tol_set -> jumps <> [] -> r = Throw msg_jumps) /\
  (steps_set -> ~ tol_set -> jumps = [] -> forall m, r = Throw m -> m = "std::length_error"%string) /\
  (~ steps_set -> tol_set -> forall m, r = Throw m -> m = "std::length_error"%string).
Proof.
  cbv zeta. unfold pyscs_new. replace (@seqb float Scalar_F tol minus_one) with (tol =? -1)%float by reflexivity.
  assert (Q : forall m, (do r <- auto_build pay err cmp powf tol fuel (py_jumps lo hi jumps) lo hi; let '(l, m, _) := r in Ret (l, m)) = Throw m -> m = "std::length_error"%string).
  { intros m. pose proof (quiet_auto pay err cmp powf tol fuel (py_jumps lo hi jumps) lo hi) as Q. destruct (auto_build _ _ _ _ _ _ _ _ _) as [[[l m0] lg]|m0|m0|]; cbn [bind]; try discriminate. destruct Q. }
  destruct (Z.eqb_spec steps (-1)) as [Es|Es]; destruct (tol =? -1)%float eqn:Et; cbn [andb negb];
    (split; [|split; [|split; [|split]]]); intros A B;
    try (exfalso; solve [apply A; exact Es | apply A; auto | congruence | apply B; reflexivity]); auto.
  - intros m. destruct (sle _ tol); [apply Q|apply uniform_throw].
  - intros K. destruct jumps; [congruence|reflexivity].
  - intros -> m. cbn [negb]. destruct (sle _ tol); [apply Q|apply uniform_throw].
Qed.

(** Accepted options: a positive number of steps gives that many sectors covering [xmin, xmax]. *)
Theorem C56_steps_partial {P} (pay : float -> float -> dir -> P) err cmp powf (lo hi : float) (steps : Z) :
  (1 <= steps)%Z -> exists l m, pyscs_new pay err cmp powf (Z.to_nat steps) lo hi steps (-1)%float [] = Ret (l, m) /\
    Z.of_nat (length l) = steps /\ partition lo hi l /\ directions_ok l m /\ (0 <= m < steps)%Z.
Proof.
  intros Hs. destruct (C02_uniform_double pay cmp lo hi steps Hs) as [l [m [E R]]]. exists l, m. split; [|exact R].
  unfold pyscs_new. rewrite (proj2 (Z.eqb_neq steps (-1)) ltac:(lia)). cbn [negb andb].
  change (@seqb float Scalar_F (-1)%float minus_one) with true. cbn [negb andb]. change (@sle float Scalar_F (sofZ 0) (-1)%float) with false. exact E.
Qed.
(** A nonnegative tolerance, in exact arithmetic, with distinct jumps: construction ends and the sectors are a partition. *)
Theorem C56_tolerance_partial {P} (pay : R -> R -> dir -> P) err cmp (k tol lo hi : R) (jumps : list R) :
  (0 < k)%R -> (0 < tol)%R -> (lo < hi)%R -> NoDup jumps ->
  exists F l m, (forall fuel, (F <= fuel)%nat -> pyscs_new pay err cmp (fun tol e => Rpower (tol / e) k) fuel lo hi (-1) tol jumps = Ret (l, m)) /\
    partition lo hi l /\ directions_ok l m /\ forall s, In s l -> (smin s < smax s)%R.
Proof.
  intros Hk Ht Hl Hn. destruct (C05_code_factor k tol Hk Ht) as [A B].
  destruct (C05_construction_terminates pay err cmp (fun tol e => Rpower (tol / e) k) tol lo hi (py_jumps lo hi jumps) A B Hl) as [F [l [m [log [E G]]]]].
  - unfold py_jumps. apply nodup_strict; [|apply sort_R_sorted]. eapply Permutation.Permutation_NoDup; [symmetry; apply sort_R_perm|]. apply NoDup_filter; auto.
  - intros j Hj. apply C06_filter_partial in Hj as [_ [J1 J2]]. cbn in J1, J2. apply Rltb_true in J1. apply Rltb_true in J2. auto.
  - exists F, l, m. split.
    + intros fuel Hf. unfold pyscs_new. cbn [Z.eqb Pos.eqb negb andb].
      assert (S : @seqb R Scalar_R tol minus_one = false). { cbn. apply Reqb_false. unfold minus_one. cbn. lra. }
      rewrite S. cbn [andb negb]. assert (S0 : @sle R Scalar_R (sofZ 0) tol = true) by (cbn; apply Rleb_true; lra). rewrite S0.
      rewrite (E fuel Hf). reflexivity.
    + specialize (E F (le_n _)). apply C03_automatic_real in E as [E1 [E2 _]]. split; [auto|]. split; [auto|]. intros s Hs. apply G in Hs. tauto.
Qed.
(** Over doubles: whatever the options, when the constructor returns from a nonnegative tolerance the list is two chains
    that meet (C03). *)
Theorem C56_returned_partial {P} (pay : float -> float -> dir -> P) err cmp powf fuel (lo hi tol : float) jumps l m :
  (0 <=? tol)%float = true -> pyscs_new pay err cmp powf fuel lo hi (-1) tol jumps = Ret (l, m) ->
  (0 <= m < Z.of_nat (length l) - 1)%Z /\ directions_ok l m /\
  exists fs bs x y, l = fs ++ bs /\ Z.of_nat (length fs) = (m + 1)%Z /\ fs <> [] /\ bs <> [] /\ chain lo x fs /\ chain y hi bs /\ (x =? y)%float = true.
Proof.
  intros Ht. unfold pyscs_new. cbn [Z.eqb Pos.eqb negb andb]. destruct (seqb tol minus_one); [discriminate|]. cbn [andb negb].
  replace (@sle float Scalar_F (sofZ 0) tol) with (0 <=? tol)%float by reflexivity. rewrite Ht.
  destruct (auto_build _ _ _ _ _ _ _ _ _) as [[[l' m'] lg]|x|x|] eqn:E; cbn [bind]; try discriminate. injection 1 as <- <-.
  exact (C03_automatic pay err cmp powf tol fuel _ lo hi l' m' lg E).
Qed.

(** But other options pass the checks and give no valid list: steps = 0 is undefined behaviour, steps < -1 and any
    negative or NaN tolerance other than -1 end in std::length_error. *)
Theorem C56_zero_steps_refuted {P} (pay : float -> float -> dir -> P) err cmp powf fuel (lo hi : float) :
  pyscs_new pay err cmp powf fuel lo hi 0 (-1)%float [] = UB "sectors[0] of an empty vector".
Proof. reflexivity. Qed.
Theorem C56_negative_steps_refuted {P} (pay : float -> float -> dir -> P) err cmp powf fuel (lo hi : float) steps :
  (steps < -1)%Z -> pyscs_new pay err cmp powf fuel lo hi steps (-1)%float [] = Throw "std::length_error".
Proof.
  intros H. unfold pyscs_new. rewrite (proj2 (Z.eqb_neq steps (-1)) ltac:(lia)). cbn [negb andb].
  change (@seqb float Scalar_F (-1)%float minus_one) with true. cbn [negb andb]. change (@sle float Scalar_F (sofZ 0) (-1)%float) with false. cbv iota.
  unfold uniform_build. cbv zeta. rewrite (proj2 (Z.ltb_lt steps 0)) by lia. reflexivity.
Qed.
Theorem C56_negative_tolerance_refuted {P} (pay : float -> float -> dir -> P) err cmp powf fuel (lo hi tol : float) jumps :
  (tol =? -1)%float = false -> (0 <=? tol)%float = false -> pyscs_new pay err cmp powf fuel lo hi (-1) tol jumps = Throw "std::length_error".
Proof.
  intros E L. unfold pyscs_new. cbn [Z.eqb Pos.eqb negb andb].
  replace (@seqb float Scalar_F tol minus_one) with (tol =? -1)%float by reflexivity. rewrite E. cbn [negb andb].
  replace (@sle float Scalar_F (sofZ 0) tol) with (0 <=? tol)%float by reflexivity. rewrite L. reflexivity.
Qed.
Example ex_C56 : (-2 =? -1)%float = false /\ (0 <=? -2)%float = false /\ (nan =? -1)%float = false /\ (0 <=? nan)%float = false.
Proof. repeat split; reflexivity. Qed.
Example ex_C56_ok : exists l m, pyscs_new (fun _ _ _ => tt) (fun _ => 0%float) (fun _ _ => true) (fun _ _ => 1%float) 3 0%float 3%float 3 (-1)%float [] = Ret (l, m) /\ length l = 3%nat.
Proof. eexists. eexists. split; vm_compute; reflexivity. Qed.

Print Assumptions C56_rejects.
Print Assumptions C56_steps_partial.
Print Assumptions C56_tolerance_partial.
Print Assumptions C56_returned_partial.
Print Assumptions C56_zero_steps_refuted.
Print Assumptions C56_negative_steps_refuted.
Print Assumptions C56_negative_tolerance_refuted.
