(** C54, C55, C58: ownership in the Python and JavaScript bindings. *)
From Coq Require Import String List Arith Bool Lia.
From Verif Require Import Base M_Lifetime.
Import ListNotations.

Lemma upd_eq {A} (f : nat -> A) i v : upd f i v i = v.
Proof. unfold upd. now rewrite Nat.eqb_refl. Qed.
Lemma upd_ne {A} (f : nat -> A) i j v : j <> i -> upd f i v j = f j.
Proof. unfold upd. intros. now rewrite (proj2 (Nat.eqb_neq j i)). Qed.

(** number of wrappers whose nurse is p *)
Fixpoint wcount (n : nat) (w : nat -> bool) (u : nat -> nat) (p : nat) : nat :=
  match n with O => 0 | S n => (if w n && Nat.eqb (u n) p then 1 else 0) + wcount n w u p end.
Lemma wcount_ext n w u w' u' p : (forall f, f < n -> w f = w' f /\ u f = u' f) -> wcount n w u p = wcount n w' u' p.
Proof. intros H. induction n as [|n IH]; cbn; auto. destruct (H n ltac:(lia)) as [-> ->]. rewrite IH; auto. Qed.
Lemma wcount_pos n w u p : wcount n w u p > 0 -> exists f, f < n /\ w f = true /\ u f = p.
Proof.
  induction n as [|n IH]; cbn; [lia|]. destruct (w n) eqn:W; cbn; [destruct (Nat.eqb_spec (u n) p)|]; [exists n; auto| |];
  intros H; destruct IH as [f [A B]]; auto; exists f; split; auto; lia.
Qed.
Lemma wcount_in n w u f : f < n -> w f = true -> wcount n w u (u f) > 0.
Proof. induction n as [|n IH]; cbn; [lia|]. intros H W. destruct (Nat.eq_dec f n) as [->|N]; [rewrite W, Nat.eqb_refl; cbn; lia|]. specialize (IH ltac:(lia) W). lia. Qed.
Lemma wcount_drop n w u f p : f < n -> w f = true -> wcount n w u p = (if Nat.eqb (u f) p then 1 else 0) + wcount n (upd w f false) u p.
Proof.
  induction n as [|n IH]; cbn; [lia|]. intros H W. destruct (Nat.eq_dec f n) as [->|N].
  - rewrite W, upd_eq. cbn. rewrite (wcount_ext n (upd w n false) u w u); auto. intros g Hg. rewrite upd_ne by lia. auto.
  - rewrite (upd_ne w f n) by lia. rewrite (IH ltac:(lia) W). lia.
Qed.

(** The invariant of all histories; [extra] counts the shared_ptr arguments in flight. *)
Record inv (extra : nat -> nat) (s : pst) : Prop := {
  i_count : forall p, p_count s p = (if Nat.eqb (p_refs s p) 0 then 0 else 1) + wcount (nf s) (w_alive s) (w_nurse s) p + extra p;
  i_alive : forall p, p_alive s p = negb (Nat.eqb (p_count s p) 0);
  i_wrap : forall f, w_alive s f = negb (Nat.eqb (f_refs s f) 0);
  i_fun : forall f, f_alive s f = w_alive s f;
  i_nurse : forall f, w_alive s f = true -> w_nurse s f = f_prob s f;
  i_nf : forall f, nf s <= f -> f_refs s f = 0;
  i_np : forall p, np s <= p -> p_refs s p = 0 /\ p_count s p = 0 }.

Definition none : nat -> nat := fun _ => 0.
Definition one (p : nat) : nat -> nat := fun q => if Nat.eqb q p then 1 else 0.

Lemma inv_init : inv none p_init.
Proof. split; auto. Qed.

Ltac eqb q p := destruct (Nat.eqb_spec q p) as [->|?].

Lemma inv_copy e p s : inv e s -> p_alive s p = true -> exists s', sp_copy p s = Ret s' /\ inv (fun q => e q + one p q) s' /\
   p_refs s' = p_refs s /\ nf s' = nf s /\ f_refs s' = f_refs s /\ w_alive s' = w_alive s /\ f_alive s' = f_alive s /\ w_nurse s' = w_nurse s /\ f_prob s' = f_prob s /\ np s' = np s /\ p_alive s' = p_alive s.
Proof.
  intros I A. unfold sp_copy. rewrite A. eexists. split; [reflexivity|]. split; [|cbn; auto 20].
  destruct I. split; cbn; auto.
  - intros q. unfold one, upd. eqb q p; rewrite i_count0; lia.
  - intros q. unfold upd. eqb q p; auto.
  - intros q Hq. split; [now apply i_np0|]. unfold upd. eqb q p; [|now apply i_np0]. exfalso.
    destruct (i_np0 p Hq) as [_ Z]. rewrite i_alive0, Z in A. discriminate.
Qed.
Lemma inv_release e p s : inv (fun q => e q + one p q) s -> exists s', sp_release p s = Ret s' /\ inv e s' /\
   p_refs s' = p_refs s /\ nf s' = nf s /\ f_refs s' = f_refs s /\ np s' = np s.
Proof.
  intros I. destruct I.
  assert (C : exists c, p_count s p = S c). { rewrite i_count0. unfold one. rewrite Nat.eqb_refl. eexists. rewrite Nat.add_assoc, Nat.add_1_r. reflexivity. }
  destruct C as [c C]. assert (A : p_alive s p = true) by (rewrite i_alive0, C; reflexivity).
  unfold sp_release. rewrite A, C. eexists. split; [reflexivity|]. split; [|cbn; auto].
  split; cbn; auto.
  - intros q. pose proof (i_count0 q) as Q. unfold one, upd in *. destruct (Nat.eqb_spec q p) as [E|E]; [subst q|lia]. lia.
  - intros q. unfold upd. destruct (Nat.eqb_spec c 0) as [Z|Z].
    + eqb q p; [now rewrite Z|apply i_alive0].
    + eqb q p; [|apply i_alive0]. rewrite A. symmetry. now apply negb_true_iff, Nat.eqb_neq.
  - intros q Hq. split; [now apply i_np0|]. unfold upd. eqb q p; [|now apply i_np0]. destruct (i_np0 p Hq). congruence.
Qed.
Lemma alive_ref e p s : inv e s -> p_refs s p <> 0 -> p_alive s p = true.
Proof. intros [] H. rewrite i_alive0, i_count0. rewrite (proj2 (Nat.eqb_neq _ _) H). reflexivity. Qed.
Lemma alive_extra e p s : inv e s -> e p > 0 -> p_alive s p = true.
Proof. intros [] H. rewrite i_alive0, i_count0. apply negb_true_iff, Nat.eqb_neq. lia. Qed.
Lemma alive_fun e f s : inv e s -> f_refs s f <> 0 -> w_alive s f = true /\ f_alive s f = true /\ p_alive s (f_prob s f) = true /\ f < nf s.
Proof.
  intros [] H. assert (W : w_alive s f = true) by (rewrite i_wrap0; now apply negb_true_iff, Nat.eqb_neq).
  assert (L : f < nf s) by (destruct (le_lt_dec (nf s) f) as [K|K]; auto; exfalso; auto).
  repeat split; auto; [now rewrite i_fun0|]. rewrite <- i_nurse0 by auto. rewrite i_alive0, i_count0.
  apply negb_true_iff, Nat.eqb_neq. pose proof (wcount_in (nf s) (w_alive s) (w_nurse s) f L W). lia.
Qed.

Lemma inv_wrap e p s : inv e s -> e p > 0 -> exists s', py_wrap p p s = Ret s' /\ inv e s'.
Proof.
  intros I H. pose proof (alive_extra _ _ _ I H) as A. unfold py_wrap.
  destruct (inv_copy e p s I A) as [s1 [-> [I1 [R [N [F [W [FA [WN [FP [NP PA]]]]]]]]]]]. cbn [bind]. eexists. split; [reflexivity|].
  destruct I1. split; cbn [np p_alive p_count p_refs nf f_alive w_alive f_refs f_prob w_nurse]; auto.
  - intros q. rewrite i_count0. cbn [wcount]. rewrite !upd_eq. cbn [andb].
    rewrite (wcount_ext (nf s1) (upd (w_alive s1) (nf s1) true) (upd (w_nurse s1) (nf s1) p) (w_alive s1) (w_nurse s1)) by (intros f Hf; rewrite !upd_ne by lia; auto).
    unfold one. rewrite (Nat.eqb_sym q p). lia.
  - intros f. unfold upd. eqb f (nf s1); auto.
  - intros f. unfold upd. eqb f (nf s1); auto.
  - intros f. unfold upd. eqb f (nf s1); auto.
  - intros f Hf. rewrite upd_ne by lia. apply i_nf0. lia.
Qed.
Lemma inv_wraps e p k s : inv e s -> e p > 0 -> exists s', py_wraps k p s = Ret s' /\ inv e s'.
Proof.
  revert s. induction k as [|k IH]; intros s I H; cbn [py_wraps]; [eauto|].
  destruct (inv_wrap e p s I H) as [s1 [-> I1]]. cbn [bind]. auto.
Qed.
Lemma inv_ext e e' s : (forall p, e p = e' p) -> inv e s -> inv e' s.
Proof. intros H []. split; auto. intros p. rewrite <- H. auto. Qed.

Lemma inv_step o s : inv none s -> exists s', py_step o s = Ret s' /\ inv none s'.
Proof.
  intros I. destruct o as [|p|p k|p|p|f|f|f]; cbn [py_step].
  - eexists. split; [reflexivity|]. destruct I. unfold py_new. split; cbn [np p_alive p_count p_refs nf f_alive w_alive f_refs f_prob w_nurse]; auto.
    + intros q. destruct (i_np0 (np s) (le_n _)) as [Z1 Z2]. unfold upd. eqb q (np s); auto. specialize (i_count0 (np s)). rewrite Z1, Z2 in i_count0. cbn in *. unfold none in *. lia.
    + intros q. unfold upd. eqb q (np s); auto.
    + intros q Hq. rewrite !upd_ne by lia. apply i_np0. lia.
  - destruct (Nat.eqb_spec (p_refs s p) 0); [eauto|]. unfold use_problem. rewrite (alive_ref _ _ _ I) by auto. cbn [bind]. eauto.
  - destruct (Nat.eqb_spec (p_refs s p) 0); [eauto|]. unfold py_eigen.
    destruct (inv_copy none p s I (alive_ref _ _ _ I n)) as [s1 [-> [I1 _]]]. cbn [bind]. unfold use_problem.
    assert (E1 : (fun q => none q + one p q) p > 0) by (unfold none, one; rewrite Nat.eqb_refl; lia).
    rewrite (alive_extra _ p _ I1) by auto. cbn [bind].
    assert (X : exists s2, (match k with Some k => py_wraps k p s1 | None => Ret s1 end) = Ret s2 /\ inv (fun q => none q + one p q) s2).
    { destruct k; [apply inv_wraps; auto|eauto]. }
    destruct X as [s2 [-> I2]]. cbn [bind]. destruct (inv_release none p s2 I2) as [s3 [-> [I3 _]]]. eauto.
  - destruct (Nat.eqb_spec (p_refs s p) 0) as [Z|Z]; [eauto|]. eexists. split; [reflexivity|]. destruct I. split; cbn; auto.
    + intros q. rewrite i_count0. unfold upd. eqb q p; auto. rewrite (proj2 (Nat.eqb_neq _ _) Z). reflexivity.
    + intros q Hq. unfold upd. eqb q p; [|auto]. destruct (i_np0 p Hq). congruence.
  - unfold py_drop_problem. destruct (p_refs s p) as [|r] eqn:R; [eauto|].
    set (s1 := set_p s (p_alive s) (p_count s) (upd (p_refs s) p r)). destruct (Nat.eqb_spec r 0) as [Z|Z].
    + destruct (inv_release none p s1) as [s2 [-> [I2 _]]]; [|eauto]. destruct I. split; cbn; auto.
      * intros q. rewrite i_count0. unfold upd, one, none. destruct (Nat.eqb_spec q p) as [E|E]; [subst q; rewrite R, Z; cbn; lia|lia].
      * intros q Hq. unfold upd. eqb q p; [|auto]. destruct (i_np0 p Hq). congruence.
    + eexists. split; [reflexivity|]. destruct I. split; cbn; auto.
      * intros q. rewrite i_count0. unfold upd. eqb q p; auto. rewrite R. destruct r; [congruence|reflexivity].
      * intros q Hq. unfold upd. eqb q p; [|auto]. destruct (i_np0 p Hq). congruence.
  - destruct (Nat.eqb_spec (f_refs s f) 0) as [Z|Z]; [eauto|]. eexists. split; [reflexivity|]. destruct I. split; cbn; auto.
    + intros g. unfold upd. eqb g f; auto. rewrite i_wrap0. now rewrite (proj2 (Nat.eqb_neq _ _) Z).
    + intros g Hg. unfold upd. eqb g f; auto. exfalso. auto.
  - unfold py_drop_fun. destruct (f_refs s f) as [|r] eqn:R; [eauto|].
    destruct (alive_fun none f s I ltac:(lia)) as [W [FA [PA L]]]. cbv zeta.
    destruct (Nat.eqb_spec r 0) as [Z|Z].
    + cbn [set_f w_alive f_alive w_nurse]. rewrite W, FA. cbn [andb].
      match goal with |- exists s', sp_release ?n ?t = Ret s' /\ _ => destruct (inv_release none n t) as [s2 [-> [I2 _]]]; [|eauto] end.
      destruct I. split; cbn; auto.
      * intros q. rewrite i_count0. rewrite (wcount_drop _ _ _ f q L W). unfold one, none. rewrite (Nat.eqb_sym q). lia.
      * intros g. unfold upd. eqb g f; auto. now rewrite Z.
      * intros g. unfold upd. eqb g f; auto.
      * intros g. unfold upd. eqb g f; [discriminate|auto].
      * intros g Hg. unfold upd. eqb g f; auto.
    + eexists. split; [reflexivity|]. destruct I. split; cbn; auto.
      * intros g. unfold upd. eqb g f; auto. rewrite W. symmetry. now apply negb_true_iff, Nat.eqb_neq.
      * intros g Hg. unfold upd. eqb g f; auto. lia.
  - destruct (Nat.eqb_spec (f_refs s f) 0) as [Z|Z]; [eauto|]. unfold py_call.
    destruct (alive_fun none f s I Z) as [W [FA [PA L]]]. rewrite W, FA. cbn [andb]. unfold use_problem. rewrite PA. cbn [bind]. eauto.
Qed.
Lemma inv_run h s : inv none s -> exists s', py_run h s = Ret s' /\ inv none s'.
Proof.
  revert s. induction h as [|o h IH]; intros s I; cbn [py_run]; [eauto|].
  destruct (inv_step o s I) as [s1 [-> I1]]. cbn [bind]. auto.
Qed.

(** ** C54 *)

(** No history of Python operations accesses a destroyed object, destroys one twice or loses count. *)
Theorem C54_safe (h : list py_op) : exists s, py_run h p_init = Ret s.
Proof. destruct (inv_run h p_init inv_init) as [s [H _]]. eauto. Qed.
(** After any history a problem exists exactly as long as Python holds it or one of its eigenfunctions, and an
    eigenfunction exactly as long as Python holds it. *)
Theorem C54_exact (h : list py_op) s : py_run h p_init = Ret s ->
  (forall p, p_alive s p = true <-> p_refs s p > 0 \/ exists f, f_refs s f > 0 /\ f_prob s f = p) /\
  (forall f, f_alive s f = true <-> f_refs s f > 0).
Proof.
  intros H. destruct (inv_run h p_init inv_init) as [s' [H' I]]. assert (s' = s) by congruence. subst s'.
  split.
  - intros p. split.
    + intros A. destruct (Nat.eq_dec (p_refs s p) 0) as [Z|Z]; [right|left; lia].
      destruct I. rewrite i_alive0, i_count0, Z in A. cbn in A. unfold none in A. rewrite Nat.add_0_r in A. apply negb_true_iff, Nat.eqb_neq in A.
      destruct (wcount_pos (nf s) (w_alive s) (w_nurse s) p ltac:(lia)) as [f [_ [W N]]]. exists f. split.
      * rewrite i_wrap0 in W. apply negb_true_iff, Nat.eqb_neq in W. lia.
      * now rewrite <- i_nurse0.
    + intros [R|[f [R <-]]]; [eapply alive_ref; eauto; lia|]. apply (alive_fun none f s I). lia.
  - intros f. destruct I. rewrite i_fun0, i_wrap0. rewrite negb_true_iff, Nat.eqb_neq. lia.
Qed.
(** When everything is dropped, everything is destroyed. *)
Theorem C54_all_destroyed (h : list py_op) s : py_run h p_init = Ret s ->
  (forall p, p_refs s p = 0) -> (forall f, f_refs s f = 0) -> (forall p, p_alive s p = false) /\ (forall f, f_alive s f = false).
Proof.
  intros H Zp Zf. destruct (C54_exact h s H) as [A B]. split.
  - intros p. destruct (p_alive s p) eqn:K; auto. apply A in K as [K|[f [K _]]]; [rewrite Zp in K|rewrite Zf in K]; lia.
  - intros f. destruct (f_alive s f) eqn:K; auto. apply B in K. rewrite Zf in K. lia.
Qed.
(** An eigenfunction of a problem that was dropped keeps it alive; dropping the eigenfunction destroys both. *)
Definition ex_h1 := [PyNew; PyEigen 0 (Some 2); PyDropProblem 0; PyDropFun 0; PyCall 1].
Example ex_C54 :
  (do s <- py_run ex_h1 p_init; Ret (p_alive s 0, f_alive s 0, f_alive s 1)) = Ret (true, false, true) /\
  (do s <- py_run (ex_h1 ++ [PyDropFun 1]) p_init; Ret (p_alive s 0, f_alive s 0, f_alive s 1)) = Ret (false, false, false).
Proof. split; vm_compute; reflexivity. Qed.

(** ** C58 *)

(** A sector obtained from "__sector" is only usable while the problem is held: some history lets a read of it access
    a destroyed problem.  More precisely the read is valid exactly while C54_exact keeps the problem alive. *)
Theorem C58_refuted : exists h s p, In PyNew h /\ py_run h p_init = Ret s /\ py_read_sector p s = UB "access to a destroyed problem".
Proof.
  exists [PyNew; PyUse 0; PyDropProblem 0]. destruct (C54_safe [PyNew; PyUse 0; PyDropProblem 0]) as [s H]. exists s, 0.
  split; [cbn; auto|]. split; [exact H|]. vm_compute in H. injection H as <-. vm_compute. reflexivity.
Qed.
Theorem C58_while_held_partial h s p : py_run h p_init = Ret s ->
  (py_read_sector p s = Ret tt <-> p_refs s p > 0 \/ exists f, f_refs s f > 0 /\ f_prob s f = p).
Proof.
  intros H. rewrite <- (proj1 (C54_exact h s H)). unfold py_read_sector, use_problem. destruct (p_alive s p); split; auto; discriminate.
Qed.

(** ** C55 *)

(** Deleting a problem while one of its eigenfunctions is still used is undefined behaviour, in every history. *)
Theorem C55_refuted (h : list js_op) s p f : js_run h j_init = Ret s -> j_alive s p = true -> e_alive s f = true -> e_prob s f = p ->
  js_run (h ++ [JsDeleteProblem p; JsCall f]) j_init = UB "access to a destroyed problem".
Proof.
  intros H A E P. assert (G : forall h' t, js_run (h ++ h') t = do s <- js_run h t; js_run h' s).
  { clear. induction h as [|o h IH]; intros h' t; cbn [app js_run bind]; auto. destruct (js_step o t); cbn [bind]; auto. }
  rewrite G, H. cbn [bind js_run js_step e_alive e_prob j_alive]. rewrite E, P, upd_eq. reflexivity.
Qed.
Example ex_C55 : js_run [JsNew; JsEigen 0 1; JsDeleteProblem 0; JsCall 0] j_init = UB "access to a destroyed problem".
Proof. reflexivity. Qed.

Lemma js_step_ret o s : (forall f, o = JsCall f -> e_alive s f = true -> j_alive s (e_prob s f) = true) -> exists s', js_step o s = Ret s'.
Proof.
  intros H. destruct o; cbn [js_step]; eauto.
  - destruct (j_alive s p); eauto.
  - destruct (e_alive s f) eqn:E; eauto. rewrite (H f eq_refl E). eauto.
Qed.
(** Histories that never call an eigenfunction after deleting its problem are safe: if every prefix that ends before a call
    reaches a state where the callee's problem still exists. *)
Theorem C55_disciplined_partial (h : list js_op) :
  (forall h1 f h2 s, h = h1 ++ JsCall f :: h2 -> js_run h1 j_init = Ret s -> e_alive s f = true -> j_alive s (e_prob s f) = true) ->
  exists s, js_run h j_init = Ret s.
Proof.
  assert (G : forall h t, (forall h1 f h2 s, h = h1 ++ JsCall f :: h2 -> js_run h1 t = Ret s -> e_alive s f = true -> j_alive s (e_prob s f) = true) ->
     exists s, js_run h t = Ret s).
  { clear h. induction h as [|o h IH]; intros t H; cbn [js_run]; [eauto|].
    destruct (js_step_ret o t) as [t' E]. { intros f -> A. exact (H [] f h t eq_refl eq_refl A). }
    rewrite E. cbn [bind]. apply IH. intros h1 f h2 s Q R A. apply (H (o :: h1) f h2 s); auto; [now rewrite Q|]. cbn [js_run]. rewrite E. exact R. }
  apply G.
Qed.
(** After any history that did not fail, deleting every problem and eigenfunction handle destroys everything. *)
Definition js_bounded (s : jst) : Prop := (forall p, jp s <= p -> j_alive s p = false) /\ (forall f, je s <= f -> e_alive s f = false).
Lemma js_bounded_wraps k q s : js_bounded s -> js_bounded (js_wraps k q s).
Proof.
  revert s. induction k as [|k IH]; intros s B; cbn [js_wraps]; auto. apply IH. destruct B as [B1 B2]. split; cbn; auto.
  intros f Hf. rewrite upd_ne by lia. apply B2. lia.
Qed.
Lemma js_bounded_run h s s' : js_bounded s -> js_run h s = Ret s' -> js_bounded s'.
Proof.
  revert s. induction h as [|o h IH]; intros s B; cbn [js_run]; [congruence|].
  destruct (js_step o s) as [t|m|m|] eqn:E; cbn [bind]; try discriminate. apply IH. clear IH.
  destruct B as [B1 B2]. destruct o; cbn [js_step] in E.
  - injection E as <-. split; cbn; auto. intros p Hp. rewrite upd_ne by lia. apply B1. lia.
  - injection E as <-. split; auto.
  - destruct (j_alive s p); injection E as <-; [apply js_bounded_wraps|]; split; auto.
  - injection E as <-. split; cbn; auto. intros q Hq. unfold upd. destruct (Nat.eqb q p); auto.
  - injection E as <-. split; cbn; auto. intros q Hq. unfold upd. destruct (Nat.eqb q f); auto.
  - destruct (e_alive s f); [destruct (j_alive s _); [|discriminate]|]; injection E as <-; split; auto.
Qed.
Lemma js_run_app h h' t : js_run (h ++ h') t = do s <- js_run h t; js_run h' s.
Proof. revert t. induction h as [|o h IH]; intros t; cbn [app js_run bind]; auto. destruct (js_step o t); cbn [bind]; auto. Qed.
Lemma js_delete_problems l s : exists s', js_run (map JsDeleteProblem l) s = Ret s' /\ e_alive s' = e_alive s /\ jp s' = jp s /\ je s' = je s /\
  forall p, j_alive s' p = true -> j_alive s p = true /\ ~ In p l.
Proof.
  revert s. induction l as [|q l IH]; intros s; cbn [map js_run]; [exists s; repeat split; auto|].
  cbn [js_step bind]. destruct (IH (mkJ (jp s) (upd (j_alive s) q false) (je s) (e_alive s) (e_prob s))) as [s' [R [A [B [C D]]]]].
  exists s'. repeat split; auto; specialize (D p H) as [D1 D2]; cbn in D1; unfold upd in D1; destruct (Nat.eqb_spec p q) as [->|N]; try discriminate; auto.
  intros [K|K]; auto.
Qed.
Lemma js_delete_funs l s : exists s', js_run (map JsDeleteFun l) s = Ret s' /\ j_alive s' = j_alive s /\
  forall p, e_alive s' p = true -> e_alive s p = true /\ ~ In p l.
Proof.
  revert s. induction l as [|q l IH]; intros s; cbn [map js_run]; [exists s; repeat split; auto|].
  cbn [js_step bind]. destruct (IH (mkJ (jp s) (j_alive s) (je s) (upd (e_alive s) q false) (e_prob s))) as [s' [R [A D]]].
  exists s'. repeat split; auto; specialize (D p H) as [D1 D2]; cbn in D1; unfold upd in D1; destruct (Nat.eqb_spec p q) as [->|N]; try discriminate; auto.
  intros [K|K]; auto.
Qed.
Theorem C55_delete_all_partial (h : list js_op) s : js_run h j_init = Ret s ->
  exists s', js_run (h ++ map JsDeleteProblem (seq 0 (jp s)) ++ map JsDeleteFun (seq 0 (je s))) j_init = Ret s' /\
    (forall p, j_alive s' p = false) /\ (forall f, e_alive s' f = false).
Proof.
  intros H. assert (B : js_bounded s) by (apply (js_bounded_run h j_init); auto; split; auto).
  rewrite js_run_app, H. cbn [bind]. rewrite js_run_app.
  destruct (js_delete_problems (seq 0 (jp s)) s) as [s1 [-> [A1 [_ [_ D1]]]]]. cbn [bind].
  destruct (js_delete_funs (seq 0 (je s)) s1) as [s2 [-> [A2 D2]]]. exists s2. split; auto. split.
  - intros p. rewrite A2. destruct (j_alive s1 p) eqn:K; auto. apply D1 in K as [K1 K2]. exfalso. apply K2, in_seq. split; [lia|]. cbn.
    destruct (le_lt_dec (jp s) p) as [L|L]; auto. rewrite (proj1 B p L) in K1. discriminate.
  - intros p. destruct (e_alive s2 p) eqn:K; auto. apply D2 in K as [K1 K2]. rewrite A1 in K1. exfalso. apply K2, in_seq. split; [lia|]. cbn.
    destruct (le_lt_dec (je s) p) as [L|L]; auto. rewrite (proj2 B p L) in K1. discriminate.
Qed.

Print Assumptions C54_safe.
Print Assumptions C54_exact.
Print Assumptions C54_all_destroyed.
Print Assumptions C55_refuted.
Print Assumptions C55_disciplined_partial.
Print Assumptions C55_delete_all_partial.
Print Assumptions C58_refuted.
Print Assumptions C58_while_held_partial.
