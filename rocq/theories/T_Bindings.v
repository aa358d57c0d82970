(** C86, C87: checks and conversions of the bindings. *)
From Coq Require Import String ZArith QArith Floats Lia List Bool Sorting.Sorted FunctionalExtensionality.
From Coq Require Import Reals Lra.
From Verif Require Import M_Search Base M_Sectors M_Core M_Eigen M_Periodic S_Sectors P_Lookup T_Eigen M_Bindings.
Import ListNotations.

(** ** C86 *)
(** In exact arithmetic the constructor rejects exactly the matrices whose determinant differs from 1 by more than 1e-6, with the
    documented message. *)
Theorem C86_exact : forall a b c d : R,
  (Rabs (1 - (a * d - b * c)) <= 1 / 1000000 -> periodic_check a b c d = Ret tt)%R /\
  (1 / 1000000 < Rabs (1 - (a * d - b * c)) -> periodic_check a b c d = Throw "PyslisePeriodic: K should have determinant 1.")%R.
Proof.
  intros a b c d. unfold periodic_check. change (sofQ (1 # 1000000)) with (1 / 1000000)%R. change (sabs (ssub (sofZ 1) (ssub (smul a d) (smul b c)))) with (Rabs (1 - (a * d - b * c))).
  change (slt (1 / 1000000)%R (Rabs (1 - (a * d - b * c)))) with (Rltb (1 / 1000000) (Rabs (1 - (a * d - b * c)))).
  destruct (Rltb _ _) eqn:L; [apply Rltb_true in L|apply Rltb_false in L]; split; intro G; auto; exfalso; lra.
Qed.
(** On doubles: every matrix with an entry that is not a number passes the check. *)
Definition is_nan (x : float) : Prop := (x =? x)%float = false.
Lemma nan_sf : forall x, is_nan x <-> Prim2SF x = S754_nan.
Proof.
  intro x. unfold is_nan. rewrite FloatAxioms.eqb_spec. split; [|intros ->; reflexivity]. pose proof (FloatAxioms.Prim2SF_valid x) as V.
  destruct (Prim2SF x) as [s|s| |s m e]; try reflexivity; try (destruct s; discriminate). unfold SFeqb, SFcompare. destruct s; rewrite Z.compare_refl, Pos.compare_cont_refl; discriminate.
Qed.
Lemma nan_op : forall (op : float -> float -> float) (sf : spec_float -> spec_float -> spec_float), (forall x y, Prim2SF (op x y) = sf (Prim2SF x) (Prim2SF y)) ->
  (forall x, sf S754_nan x = S754_nan) -> (forall x, sf x S754_nan = S754_nan) -> forall x y, is_nan x \/ is_nan y -> is_nan (op x y).
Proof. intros op sf E A B x y [H|H]; apply nan_sf; apply nan_sf in H; rewrite E, H; auto. Qed.
Lemma nan_mul : forall x y, is_nan x \/ is_nan y -> is_nan (x * y)%float.
Proof. apply (nan_op _ SF64mul FloatAxioms.mul_spec); [reflexivity|]. intros [s|s| |s m e]; reflexivity. Qed.
Lemma nan_sub : forall x y, is_nan x \/ is_nan y -> is_nan (x - y)%float.
Proof. apply (nan_op _ SF64sub FloatAxioms.sub_spec); [reflexivity|]. intros [s|s| |s m e]; reflexivity. Qed.
Lemma nan_lt : forall x y, is_nan y -> (x <? y)%float = false.
Proof. intros x y H. apply nan_sf in H. rewrite FloatAxioms.ltb_spec, H. unfold SFltb. destruct (Prim2SF x); reflexivity. Qed.
Lemma nan_abs : forall x, is_nan x -> is_nan (abs x).
Proof. intros x H. apply nan_sf. apply nan_sf in H. rewrite FloatAxioms.abs_spec, H. reflexivity. Qed.
Theorem C86_nan_refuted : forall a b c d : float, is_nan a \/ is_nan b \/ is_nan c \/ is_nan d -> periodic_check a b c d = Ret tt.
Proof.
  intros a b c d H. unfold periodic_check. assert (is_nan (abs (1 - (a * d - b * c)))%float) as N.
  { apply nan_abs, nan_sub. right. apply nan_sub. destruct H as [H|[H|[H|H]]]; [left|right|right|left]; apply nan_mul; auto. }
  match goal with |- (if ?t then _ else _) = _ => change t with (sofQ (1 # 1000000) <? abs (1 - (a * d - b * c)))%float end. rewrite (nan_lt _ _ N). reflexivity.
Qed.
(** and the object that results answers a query by index with numbers that have nothing to do with the problem: whenever determinant and
    angles are not numbers at every energy, the four lowest eigenvalues are said to be about -1. *)
Theorem C86_nan_answers : forall err derr tmin tmax : float -> float,
  (forall E : float, is_nan (err E) /\ is_nan (derr E) /\ is_nan (tmin E) /\ is_nan (tmax E)) ->
  periodic_byIndex err derr tmin tmax 200 false 0%Z 4%Z =
    Ret [(0%Z, (-0x1.fffffffp-1)%float, false); (1%Z, (-0x1.ffffffdp-1)%float, true); (3%Z, (-0x1.ffffffbp-1)%float, true)] /\
  forall Emin Emax : float, periodic_eigenvalues err derr tmin tmax 200 false Emin Emax = UB "float to int conversion".
Proof.
  intros err derr tmin tmax H. assert (forall x, is_nan x -> x = nan) as N by (intros x X; apply nan_sf in X; apply FloatAxioms.Prim2SF_inj; exact X).
  assert (err = (fun _ => nan)) as -> by (extensionality E; apply N; apply H). assert (derr = (fun _ => nan)) as -> by (extensionality E; apply N; apply H).
  assert (tmin = (fun _ => nan)) as -> by (extensionality E; apply N; apply H). assert (tmax = (fun _ => nan)) as -> by (extensionality E; apply N; apply H).
  split; [vm_compute; reflexivity|]. intros Emin Emax. reflexivity.
Qed.

(** ** C87 *)
Section Points.
Context {P : Type}.
Implicit Types l : list (sector R P).
Lemma vget_nth : forall A (l : list A) i x, (0 <= i)%Z -> nth_error l (Z.to_nat i) = Some x -> vget l i = Ret x.
Proof. intros A l i x Hi E. unfold vget. rewrite (proj2 (Z.ltb_ge i 0)) by lia. rewrite E. reflexivity. Qed.
Lemma points_loop : forall n l k, (length l <= k + n)%nat -> sector_points_loop n (Z.of_nat k) l = Ret (map smin (skipn k l)).
Proof.
  induction n as [|n IH]; intros l k Hn; cbn [sector_points_loop].
  - rewrite (proj2 (Z.ltb_ge _ _)) by lia. rewrite skipn_all2 by lia. reflexivity.
  - destruct (Z.ltb_spec (Z.of_nat k) (Z.of_nat (length l))) as [L|L].
    + destruct (nth_error l k) as [s|] eqn:Es; [|apply nth_error_None in Es; lia]. rewrite (vget_nth _ l _ s) by (rewrite ?Nat2Z.id; auto; lia). cbn [bind].
      replace (Z.of_nat k + 1)%Z with (Z.of_nat (S k)) by lia. rewrite IH by lia. cbn [bind]. f_equal.
      clear - Es. revert l Es. induction k as [|k IH]; intros [|t l] Es; try discriminate; [injection Es as ->; reflexivity|]. cbn [skipn]. apply IH. exact Es.
    + rewrite skipn_all2 by lia. reflexivity.
Qed.
Lemma chain_points : forall l lo hi, chain lo hi l -> (forall s, In s l -> (smin s < smax s)%R) ->
  (l <> [] -> (lo < hi)%R) /\ StronglySorted Rlt (map smin l) /\ Forall (fun x => (lo <= x < hi)%R) (map smin l) /\ removelast (map smax l) = map smin (tl l).
Proof.
  induction l as [|s l IH]; intros lo hi C O; cbn [chain] in C; [split; [congruence|]; repeat constructor|]. destruct C as [<- C].
  destruct (IH _ _ C) as (A & B & D & F); [intros t Ht; apply O; right; exact Ht|]. pose proof (O s (or_introl eq_refl)) as Os.
  assert (smax s <= hi)%R as Hs by (destruct l as [|t l]; [cbn in C; lra|specialize (A ltac:(discriminate)); lra]).
  split; [intros _; lra|]. cbn [map tl]. split; [|split].
  - constructor; [exact B|]. eapply Forall_impl; [|exact D]. intros x Hx. cbn beta in Hx. lra.
  - constructor; [lra|]. eapply Forall_impl; [|exact D]. intros x Hx. cbn beta in Hx. lra.
  - destruct l as [|t l]; [reflexivity|]. cbn [map] in *. cbn [removelast]. cbn [tl] in F. change (smax t :: map smax l) with (map smax (t :: l)). f_equal.
    + cbn [chain] in C. destruct C as [C _]. symmetry. exact C.
    + exact F.
Qed.
(** The points reported to JavaScript are the interior sector boundaries in increasing order: one less than sectors, strictly increasing,
    strictly inside the domain, each the end of a sector and the start of the next. *)
Theorem C87_sector_points : forall l lo hi, partition lo hi l -> (forall s, In s l -> (smin s < smax s)%R) ->
  exists xs, sector_points l = Ret xs /\ Z.of_nat (length xs) = (Z.of_nat (length l) - 1)%Z /\ StronglySorted Rlt xs /\
    (forall x, In x xs <-> exists i s s', nth_error l i = Some s /\ nth_error l (S i) = Some s' /\ smax s = x /\ smin s' = x) /\
    Forall (fun x => (lo < x < hi)%R) xs.
Proof.
  intros l lo hi [N C] O. destruct (chain_points l lo hi C O) as (A & B & D & F). exists (map smin (tl l)).
  split; [unfold sector_points; change 1%Z with (Z.of_nat 1); rewrite points_loop by lia; destruct l; reflexivity|].
  destruct l as [|s l]; [congruence|]. cbn [tl]. cbn [map] in B, D. inversion B as [|? ? B1 B2]; subst. inversion D as [|? ? D1 D2]; subst. cbn [chain] in C. destruct C as [C1 C2].
  split; [rewrite map_length; cbn [length]; lia|]. split; [exact B1|]. split.
  - intro x. split.
    + intro I. apply in_map_iff in I. destruct I as (t & <- & I). apply In_nth_error in I. destruct I as (i & Ei). destruct (nth_error (s :: l) i) as [u|] eqn:Eu.
      2:{ exfalso. apply nth_error_None in Eu. assert (i < length l)%nat by (apply nth_error_Some; congruence). cbn [length] in Eu. lia. }
      exists i, u, t. split; [exact Eu|]. split; [exact Ei|]. split; [|reflexivity]. symmetry.
      clear - C2 Eu Ei. revert l s C2 Eu Ei. induction i as [|i IH]; intros l s C2 Eu Ei.
      * injection Eu as <-. destruct l as [|v l]; [discriminate|]. injection Ei as <-. cbn [chain] in C2. exact (proj1 C2).
      * destruct l as [|v l]; [discriminate|]. cbn [chain] in C2. destruct C2 as [C2 C3]. exact (IH l v C3 Eu Ei).
    + intros (i & u & t & _ & Ei & _ & <-). apply in_map. cbn [nth_error] in Ei. exact (nth_error_In l i Ei).
  - rewrite Forall_forall in *. intros x I. specialize (D2 x I). specialize (B2 x I). lra.
Qed.
End Points.

(** Arrays of points: the rows given to JavaScript and the columns given to Python are the values at the points, one by one. *)
Theorem C87_conversions : forall (f : R -> res (R * R)) fN xs vs, fN xs = Ret vs -> Forall2 (fun x v => f x = Ret v) xs vs ->
  js_eval f fN (Array xs) = Ret (Rows vs) /\
  Forall2 (fun x v => js_eval f fN (Number x) = Ret (Vector v)) xs vs /\
  (exists ys ds, py_call fN xs = Ret (ys, ds) /\ compute_eigenfunction fN xs = Ret ys /\ length ys = length xs /\ length ds = length xs /\
     forall i x, nth_error xs i = Some x -> exists y d, nth_error ys i = Some y /\ nth_error ds i = Some d /\ f x = Ret (y, d)).
Proof.
  intros f fN xs vs E F. split; [cbn [js_eval]; rewrite E; reflexivity|]. split.
  - clear - F. induction F as [|x v xs vs Q F IH]; constructor; [cbn [js_eval]; rewrite Q; reflexivity|exact IH].
  - exists (map fst vs), (map snd vs). unfold py_call, compute_eigenfunction. rewrite E. cbn [bind]. assert (length xs = length vs) as L by (clear - F; induction F; cbn [length]; congruence). rewrite !map_length.
    split; [reflexivity|]. split; [reflexivity|]. split; [congruence|]. split; [congruence|]. clear - F. intros i x Ex.
    revert i Ex. induction F as [|a v xs vs Q F IH]; intros [|i] Ex; try discriminate.
    + injection Ex as <-. exists (fst v), (snd v). cbn [map nth_error]. destruct v. auto.
    + cbn [map nth_error]. exact (IH i Ex).
Qed.

(** ** Examples *)
Example C86_case : periodic_check (T := float) (-1)%float 0%float 0%float (-1)%float = Ret tt /\ periodic_check (T := float) 1%float 0%float 0%float 2%float = Throw msg_K /\ periodic_check (T := float) nan 0%float 0%float 1%float = Ret tt.
Proof. repeat split; vm_compute; reflexivity. Qed.
Example C87_case : sector_points [mkSector 0 1 Dfwd tt; mkSector 1 3 Dfwd tt; mkSector 3 4 Dbwd tt]%R = Ret [1; 3]%R.
Proof. reflexivity. Qed.
Example C87_eval : exists vs, js_eval (eigenfunction_at ef_T 0 ef_l 0 1 0 PI Dirichlet Dirichlet) (eigenfunction_on ef_T 0 ef_l 0 1 0 PI Dirichlet Dirichlet) (Array [2; 1; -1; 0.5; 1]%R) = Ret (Rows vs) /\
  Forall2 (fun x v => js_eval (eigenfunction_at ef_T 0 ef_l 0 1 0 PI Dirichlet Dirichlet) (eigenfunction_on ef_T 0 ef_l 0 1 0 PI Dirichlet Dirichlet) (Number x) = Ret (Vector v)) [2; 1; -1; 0.5; 1]%R vs.
Proof. destruct C36_case as (vs & E & F). exists vs. destruct (C87_conversions _ _ _ _ E F) as (A & B & _). auto. Qed.

Print Assumptions C86_exact.
Print Assumptions C86_nan_refuted.
Print Assumptions C86_nan_answers.
Print Assumptions C87_sector_points.
Print Assumptions C87_conversions.
