(** Where the potential is evaluated (C07). *)
From Coq Require Import String ZArith QArith List Bool Lia Reals Lra Sorted Qreals.
From Verif Require Import Base M_LegendreData M_Sectors M_Legendre S_Sectors P_Lookup P_Uniform P_Auto P_AutoR.
Import ListNotations.

(** A builder run only depends on the payloads of the sectors it constructs. *)
Section Ext.
Context {T : Type} `{Scalar T} {P : Type}.
Notation sec := (sector T P).
Variables (pay pay' : T -> T -> dir -> P) (err : sec -> T) (cmp : sec -> sec -> bool) (powf : T -> T -> T) (tol : T).

Definition agree (log : list sec) : Prop := forall s, In s log -> pay (smin s) (smax s) (sdir s) = pay' (smin s) (smax s) (sdir s).

Lemma agree_mk log a b d : agree log -> In (mk pay a b d) log -> mk pay' a b d = mk pay a b d.
Proof. intros A I. apply A in I. simpl in I. unfold mk. rewrite I. reflexivity. Qed.
Lemma agree_app l1 l2 : agree (l1 ++ l2) -> agree l1.
Proof. intros A s I. apply A. apply in_or_app; auto. Qed.

Lemma shrink_log fuel d steps h a b s log st h' a' b' s' log' :
  shrink_loop pay err powf tol fuel d steps h a b s log = Ret (st, h', a', b', s', log') -> exists new, log' = log ++ new.
Proof.
  revert steps h a b s log; induction fuel as [|f IH]; intros steps h a b s log; cbn [shrink_loop].
  - destruct (_ && _ && _); [discriminate|]. intros E; injection E as <- <- <- <- <- <-. exists []; rewrite app_nil_r; auto.
  - destruct (_ && _ && _).
    + intros E. apply IH in E as [new E]. rewrite <- app_assoc in E. eauto.
    + intros E; injection E as <- <- <- <- <- <-. exists []; rewrite app_nil_r; auto.
Qed.
Lemma shrink_ext fuel d steps h a b s log st h' a' b' s' log' :
  shrink_loop pay err powf tol fuel d steps h a b s log = Ret (st, h', a', b', s', log') -> agree log' ->
  shrink_loop pay' err powf tol fuel d steps h a b s log = Ret (st, h', a', b', s', log').
Proof.
  revert steps h a b s log; induction fuel as [|f IH]; intros steps h a b s log; cbn [shrink_loop]; [auto|].
  destruct (_ && _ && _); [|auto]. intros E A. destruct (shrink_log _ _ _ _ _ _ _ _ _ _ _ _ _ _ E) as [new N].
  assert (A1 : agree ((log ++ [mk pay match d with Dfwd => a | _ => ssub b (smul h (std_max c_p1 (smul c_p99 (powf tol (err s))))) end
      match d with Dfwd => sadd a (smul h (std_max c_p1 (smul c_p99 (powf tol (err s))))) | _ => b end d]) ++ new)) by (rewrite <- N; auto).
  rewrite (agree_mk _ _ _ _ (agree_app _ _ A1)) by (apply in_or_app; simpl; auto). apply IH; auto.
Qed.

Lemma grow_log fuel d left right steps h a b e s log h' s' log' :
  grow_loop pay err powf tol fuel d left right steps h a b e s log = Ret (h', s', log') -> exists new, log' = log ++ new.
Proof.
  revert steps h a b e s log; induction fuel as [|f IH]; intros steps h a b e s log; cbn [grow_loop].
  - destruct (_ && _ && _); [discriminate|]. intros E; injection E as <- <- <-. exists []; rewrite app_nil_r; auto.
  - destruct (_ && _ && _).
    + match goal with |- (let '(_, _) := ?p in _) = _ -> _ => destruct p as [a1 b1] end.
      destruct (slt tol (err (mk pay a1 b1 d))).
      * intros E; injection E as <- <- <-. eauto.
      * intros E. apply IH in E as [new E]. rewrite <- app_assoc in E. eauto.
    + intros E; injection E as <- <- <-. exists []; rewrite app_nil_r; auto.
Qed.
Lemma grow_ext fuel d left right steps h a b e s log h' s' log' :
  grow_loop pay err powf tol fuel d left right steps h a b e s log = Ret (h', s', log') -> agree log' ->
  grow_loop pay' err powf tol fuel d left right steps h a b e s log = Ret (h', s', log').
Proof.
  revert steps h a b e s log; induction fuel as [|f IH]; intros steps h a b e s log; cbn [grow_loop]; [auto|].
  destruct (_ && _ && _); [|auto].
  match goal with |- (let '(_, _) := ?p in _) = _ -> _ => destruct p as [a1 b1] end.
  intros E A. assert (M : In (mk pay a1 b1 d) log').
  { destruct (slt tol (err (mk pay a1 b1 d))).
    - injection E as <- <- <-. apply in_or_app; simpl; auto.
    - apply grow_log in E as [new E]. rewrite E. rewrite !in_app_iff. simpl; auto. }
  rewrite (agree_mk _ _ _ _ A M). destruct (slt tol (err (mk pay a1 b1 d))); auto.
Qed.

Lemma next_log h left right d log s h' log' :
  next_sector pay err powf tol h left right d log = Ret (s, h', log') -> exists new, log' = log ++ new.
Proof.
  unfold next_sector. match goal with |- (let '(_, _) := ?p in _) = _ -> _ => destruct p as [a b] end.
  intros E. destruct (shrink_loop pay err powf tol 11 d 0 (ssub b a) a b (mk pay a b d) (log ++ [mk pay a b d]))
    as [[[[[[st h1] a1] b1] s1] l1]| | |] eqn:S; try discriminate. cbn [bind] in E.
  apply shrink_log in S as [n1 ->]. destruct (st =? 0)%Z.
  - destruct (grow_loop _ _ _ _ _ _ _ _ _ _ _ _ _ _ _) as [[[h2 s2] l2]| | |] eqn:G; try discriminate.
    cbn [bind] in E. injection E as <- <- <-. apply grow_log in G as [n2 ->]. rewrite <- !app_assoc. eauto.
  - injection E as <- <- <-. rewrite <- !app_assoc. eauto.
Qed.
Lemma next_ext h left right d log s h' log' :
  next_sector pay err powf tol h left right d log = Ret (s, h', log') -> agree log' ->
  next_sector pay' err powf tol h left right d log = Ret (s, h', log').
Proof.
  unfold next_sector. match goal with |- (let '(_, _) := ?p in _) = _ -> _ => destruct p as [a b] end.
  intros E A. destruct (shrink_loop pay err powf tol 11 d 0 (ssub b a) a b (mk pay a b d) (log ++ [mk pay a b d]))
    as [[[[[[st h1] a1] b1] s1] l1]| | |] eqn:S; try discriminate. cbn [bind] in E.
  pose proof (shrink_log _ _ _ _ _ _ _ _ _ _ _ _ _ _ S) as [n1 N1].
  assert (L1 : exists n2, log' = l1 ++ n2).
  { destruct (st =? 0)%Z.
    - destruct (grow_loop _ _ _ _ _ _ _ _ _ _ _ _ _ _ _) as [[[h2 s2] l2]| | |] eqn:G; try discriminate.
      cbn [bind] in E. injection E as <- <- <-. apply grow_log in G. auto.
    - injection E as <- <- <-. exists []; rewrite app_nil_r; auto. }
  destruct L1 as [n2 L1]. assert (A1 : agree l1) by (apply agree_app with (l2 := n2); rewrite <- L1; auto).
  rewrite (agree_mk l1) by (auto; rewrite N1, !in_app_iff; simpl; auto).
  rewrite (shrink_ext _ _ _ _ _ _ _ _ _ _ _ _ _ _ S) by auto. cbn [bind]. destruct (st =? 0)%Z; auto.
  destruct (grow_loop pay err powf tol 11 d left right 0 h1 a1 b1 (err s1) s1 l1) as [[[h2 s2] l2]| | |] eqn:G; try discriminate.
  cbn [bind] in E. injection E as <- <- <-. rewrite (grow_ext _ _ _ _ _ _ _ _ _ _ _ _ _ _ G) by auto. reflexivity.
Qed.

Lemma loop_log fuel lo hi fs bs f0 b0 hf hb fj bj log fs' bs' log' :
  auto_loop pay err cmp powf tol fuel lo hi fs bs f0 b0 hf hb fj bj log = Ret (fs', bs', log') -> exists new, log' = log ++ new.
Proof.
  revert fs bs f0 b0 hf hb fj bj log; induction fuel as [|f IH]; intros fs bs f0 b0 hf hb fj bj log; cbn [auto_loop];
    (destruct (seqb (smax f0) (smin b0)); [intros E; injection E as <- <- <-; exists []; rewrite app_nil_r; auto|]); [discriminate|].
  destruct (cmp b0 f0).
  - destruct (if seqb (smax f0) (next_fwd hi fj) then pop fj else Ret fj) as [fj'| | |]; try discriminate. cbn [bind].
    destruct (next_sector _ _ _ _ _ _ _ _ _) as [[[s h'] l']| | |] eqn:N; try discriminate. cbn [bind]. intros E.
    apply next_log in N as [n1 ->]. apply IH in E as [n2 ->]. rewrite <- app_assoc. eauto.
  - destruct (if seqb (smin b0) (next_bwd lo bj) then pop bj else Ret bj) as [bj'| | |]; try discriminate. cbn [bind].
    destruct (next_sector _ _ _ _ _ _ _ _ _) as [[[s h'] l']| | |] eqn:N; try discriminate. cbn [bind]. intros E.
    apply next_log in N as [n1 ->]. apply IH in E as [n2 ->]. rewrite <- app_assoc. eauto.
Qed.
Lemma loop_ext fuel lo hi fs bs f0 b0 hf hb fj bj log fs' bs' log' :
  auto_loop pay err cmp powf tol fuel lo hi fs bs f0 b0 hf hb fj bj log = Ret (fs', bs', log') -> agree log' ->
  auto_loop pay' err cmp powf tol fuel lo hi fs bs f0 b0 hf hb fj bj log = Ret (fs', bs', log').
Proof.
  revert fs bs f0 b0 hf hb fj bj log; induction fuel as [|f IH]; intros fs bs f0 b0 hf hb fj bj log; cbn [auto_loop];
    (destruct (seqb (smax f0) (smin b0)); [auto|]); [discriminate|].
  destruct (cmp b0 f0).
  - destruct (if seqb (smax f0) (next_fwd hi fj) then pop fj else Ret fj) as [fj'| | |]; try discriminate. cbn [bind].
    destruct (next_sector pay _ _ _ _ _ _ _ _) as [[[s h'] l']| | |] eqn:N; try discriminate. cbn [bind]. intros E A.
    pose proof (loop_log _ _ _ _ _ _ _ _ _ _ _ _ _ _ _ E) as [n2 L].
    rewrite (next_ext _ _ _ _ _ _ _ _ N) by (apply agree_app with (l2 := n2); rewrite <- L; auto). cbn [bind]. auto.
  - destruct (if seqb (smin b0) (next_bwd lo bj) then pop bj else Ret bj) as [bj'| | |]; try discriminate. cbn [bind].
    destruct (next_sector pay _ _ _ _ _ _ _ _) as [[[s h'] l']| | |] eqn:N; try discriminate. cbn [bind]. intros E A.
    pose proof (loop_log _ _ _ _ _ _ _ _ _ _ _ _ _ _ _ E) as [n2 L].
    rewrite (next_ext _ _ _ _ _ _ _ _ N) by (apply agree_app with (l2 := n2); rewrite <- L; auto). cbn [bind]. auto.
Qed.

Lemma build_ext fuel jumps lo hi l m log :
  auto_build pay err cmp powf tol fuel jumps lo hi = Ret (l, m, log) -> agree log ->
  auto_build pay' err cmp powf tol fuel jumps lo hi = Ret (l, m, log).
Proof.
  unfold auto_build. intros E A.
  match type of E with bind ?x _ = _ => destruct x as [[[f0 hf] l1]| | |] eqn:N1; try discriminate end. cbn [bind] in *.
  match type of E with bind ?x _ = _ => destruct x as [[[b0 hb] l2]| | |] eqn:N2; try discriminate end. cbn [bind] in *.
  match type of E with bind ?x _ = _ => destruct x as [[[fs bs] l3]| | |] eqn:L; try discriminate end. cbn [bind] in *.
  injection E as <- <- <-.
  pose proof (loop_log _ _ _ _ _ _ _ _ _ _ _ _ _ _ _ L) as [n3 E3]. pose proof (next_log _ _ _ _ _ _ _ _ N2) as [n2 E2].
  assert (A2 : agree l2) by (apply agree_app with (l2 := n3); rewrite <- E3; auto).
  assert (A1 : agree l1) by (apply agree_app with (l2 := n2); rewrite <- E2; auto).
  rewrite (next_ext _ _ _ _ _ _ _ _ N1) by auto. cbn [bind].
  rewrite (next_ext _ _ _ _ _ _ _ _ N2) by auto. cbn [bind].
  rewrite (loop_ext _ _ _ _ _ _ _ _ _ _ _ _ _ _ _ L) by auto. reflexivity.
Qed.
End Ext.

(** *** The nodes lie strictly inside (-1, 1) *)
Open Scope R_scope.
Definition node_ok (q : Q) : bool := Qltb (-(1)) q && Qltb q 1.
Lemma nodes_all_ok : forallb (fun k => forallb node_ok (nodes k)) [2;4;6;8;10;12;14;16;18]%nat = true.
Proof. vm_compute. reflexivity. Qed.
Lemma sofQ_Q2R q : (sofQ q : R) = Q2R q.
Proof. reflexivity. Qed.
Lemma Qltb_lt a b : Qltb a b = true -> (a < b)%Q.
Proof. unfold Qltb. intros. apply Qlt_alt. destruct (a ?= b)%Q; congruence. Qed.
Lemma nodes_inside n q : In q (nodes (kof n)) -> -1 < Q2R q < 1.
Proof.
  intros I. assert (K : node_ok q = true).
  { assert (Kin : In (kof n) [2;4;6;8;10;12;14;16;18]%nat \/ nodes (kof n) = []).
    { generalize (kof n) as k; intros k. do 19 (destruct k as [|k]; [simpl; auto 20|]). right; reflexivity. }
    destruct Kin as [Kin|E]; [|rewrite E in I; destruct I].
    pose proof nodes_all_ok as A. rewrite forallb_forall in A. specialize (A _ Kin). rewrite forallb_forall in A. auto. }
  apply andb_prop in K as [K1 K2]. apply Qltb_lt, Qlt_Rlt in K1, K2. rewrite Q2R_opp in K1.
  replace (Q2R 1) with 1 in * by (unfold Q2R; simpl; lra). lra.
Qed.
Lemma eval_points_inside n (a b x : R) : a < b -> In x (eval_points n a b) -> a < x < b.
Proof.
  intros L I. unfold eval_points in I. apply in_map_iff in I as [q [<- Hq]].
  apply nodes_inside in Hq. unfold leg_h. rewrite sofQ_Q2R. cbn [sadd sdiv smul ssub sofZ Scalar_R]. nra.
Qed.

Lemma leg_fs_ext n (f g : R -> R) a b : (forall x, In x (eval_points n a b) -> f x = g x) -> leg_fs n f a b = leg_fs n g a b.
Proof. intros E. unfold leg_fs. apply map_ext_in. auto. Qed.
Lemma coeffs_ext n (f g : R -> R) a b : (forall x, In x (eval_points n a b) -> f x = g x) -> getCoefficients n f a b = getCoefficients n g a b.
Proof.
  intros E. unfold getCoefficients. apply map_ext. intros i. unfold integrate. rewrite (leg_fs_ext n f g); auto.
Qed.
Lemma sector_vs_ext (f g : R -> R) a b d : (forall x, In x (eval_points 16 a b) -> f x = g x) -> sector_vs f a b d = sector_vs g a b d.
Proof. intros E. unfold sector_vs. rewrite (coeffs_ext 16 f g); auto. Qed.

(** *** Uniform builder *)
Lemma set_nth_length {A} (l : list A) i v : length (set_nth l i v) = length l.
Proof. revert i; induction l as [|x l IH]; intros [|i]; simpl; auto. Qed.
Section UExt.
Context {T : Type} `{Scalar T} {P : Type}.
Notation sec := (sector T P).
Lemma uloop_ext (pay pay' : T -> T -> dir -> P) cmp lo h n :
  (forall i d, (0 <= i < n)%Z -> pay (sadd lo (smul (sofZ i) h)) (sadd lo (smul (sofZ (i + 1)) h)) d = pay' (sadd lo (smul (sofZ i) h)) (sadd lo (smul (sofZ (i + 1)) h)) d) ->
  forall fuel v i j, (Z.of_nat (length v) = n)%Z -> (0 <= i)%Z -> (j < n)%Z ->
  uniform_loop pay cmp fuel lo h v i j = uniform_loop pay' cmp fuel lo h v i j.
Proof.
  intros A fuel. induction fuel as [|f IH]; intros v i j L Hi Hj; cbn [uniform_loop]; auto.
  destruct (i + 1 =? j)%Z; auto.
  destruct (vget v j) as [[sj|]| | |] eqn:Ej; cbn [bind]; auto.
  destruct (vget v i) as [[si|]| | |]; cbn [bind]; auto.
  apply vget_ret in Ej as [Ej _].
  destruct (cmp sj si).
  - destruct (Z.ltb_spec (i + 1) (Z.of_nat (length v))); auto. unfold mk. rewrite A by lia.
    apply IH; try lia. rewrite set_nth_length; auto.
  - destruct (Z.leb_spec 0 (j - 1)); auto. unfold mk. rewrite A by lia.
    apply IH; try lia. rewrite set_nth_length; auto.
Qed.
Lemma ubuild_ext (pay pay' : T -> T -> dir -> P) cmp fuel lo hi n :
  (1 <= n)%Z ->
  (forall i d, (0 <= i < n)%Z -> pay (sadd lo (smul (sofZ i) (sdiv (ssub hi lo) (sofZ n)))) (sadd lo (smul (sofZ (i + 1)) (sdiv (ssub hi lo) (sofZ n)))) d = pay' (sadd lo (smul (sofZ i) (sdiv (ssub hi lo) (sofZ n)))) (sadd lo (smul (sofZ (i + 1)) (sdiv (ssub hi lo) (sofZ n)))) d) ->
  (n = 1%Z -> pay lo hi Dfwd = pay' lo hi Dfwd) -> pay lo (sadd lo (sdiv (ssub hi lo) (sofZ n))) Dfwd = pay' lo (sadd lo (sdiv (ssub hi lo) (sofZ n))) Dfwd ->
  pay (sadd lo (smul (sofZ (n - 1)) (sdiv (ssub hi lo) (sofZ n)))) hi Dbwd = pay' (sadd lo (smul (sofZ (n - 1)) (sdiv (ssub hi lo) (sofZ n)))) hi Dbwd ->
  uniform_build pay cmp fuel n lo hi = uniform_build pay' cmp fuel n lo hi.
Proof.
  intros Hn A B C D. unfold uniform_build. destruct (n <? 0)%Z; auto. destruct (n =? 0)%Z; auto.
  destruct (Z.eqb_spec n 1); [unfold mk; rewrite B by auto; auto|]. unfold mk at 1 2. rewrite C, D.
  rewrite (uloop_ext pay pay' cmp lo (sdiv (ssub hi lo) (sofZ n)) n A); [reflexivity| |lia|lia].
  rewrite !set_nth_length, repeat_length. lia.
Qed.
End UExt.
