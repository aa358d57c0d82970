(** Newton's iteration for the matching error: the derivative the code returns is continuous in E and does not vanish at an eigenvalue. *)
From Coq Require Import String ZArith Reals Lra Lia Bool.
From Coquelicot Require Import Coquelicot.
From Coq Require Import List.
From Verif Require Import Base M_Search M_Sectors S_Sectors P_Lookup M_Core S_Core P_Core P_Core2 P_Prufer T_Core M_Eigen P_Eigen P_Eigen2 P_Eigen3 S_Accuracy S_Zeros
  S_Eta S_Legendre S_Formulas M_Formulas P_Eta P_Formulas P_Formulas2 P_Formulas3 P_Formulas4 P_Formulas5 P_Accuracy T_Formulas P_Lift P_Lift2 P_Global2 P_Global5 P_Count P_Count2 P_Constant P_Sturm P_Sturm2 P_Sturm3 P_EigenX P_EigenX2 P_EigenX3 T_Zeros T_Sturm T_Search P_Newton.
Import ListNotations.
Open Scope R_scope.

Lemma vget_In : forall (l : list sec) m sm, vget l m = Ret sm -> In sm l.
Proof. intros l m sm Hm. unfold vget in Hm. destruct (m <? 0)%Z; [discriminate|]. destruct (nth_error l (Z.to_nat m)) eqn:Q; [|discriminate]. injection Hm as <-. apply (nth_error_In _ _ Q). Qed.
(** ** Continuity of the derivative parts *)
Definition Y_cont (y : R -> Y) (E : R) : Prop :=
  (continuous (fun x => y0 (y x)) E /\ continuous (fun x => y1 (y x)) E) /\ (continuous (fun x => e0 (y x)) E /\ continuous (fun x => e1 (y x)) E).
Definition T_cont (t : R -> Tm) (E : R) : Prop :=
  (continuous (fun x => t00 (t x)) E /\ continuous (fun x => t01 (t x)) E /\ continuous (fun x => t10 (t x)) E /\ continuous (fun x => t11 (t x)) E) /\
  (continuous (fun x => d00 (t x)) E /\ continuous (fun x => d01 (t x)) E /\ continuous (fun x => d10 (t x)) E /\ continuous (fun x => d11 (t x)) E).
Lemma c_plus (f g : R -> R) x : continuous f x -> continuous g x -> continuous (fun t => f t + g t) x.
Proof. intros A B. apply (continuous_plus f g x A B). Qed.
Lemma c_mult (f g : R -> R) x : continuous f x -> continuous g x -> continuous (fun t => f t * g t) x.
Proof. intros A B. apply (continuous_mult f g x A B). Qed.
Lemma c_opp (f : R -> R) x : continuous f x -> continuous (fun t => - f t) x.
Proof. intros A. apply (continuous_opp f x A). Qed.
Lemma c_minus (f g : R -> R) x : continuous f x -> continuous g x -> continuous (fun t => f t - g t) x.
Proof. intros A B. apply (continuous_minus f g x A B). Qed.
Lemma c_const (c x : R) : continuous (fun _ : R => c) x.
Proof. apply continuous_const. Qed.

Lemma cont_tmul t y E : T_cont t E -> Y_cont y E -> Y_cont (fun x => tmul (t x) (y x)) E.
Proof.
  intros [(A & B & C & D) (A' & B' & C' & D')] [(P & Q) (P' & Q')]. unfold Y_cont, tmul; cbn [y0 y1 e0 e1].
  split; split; repeat apply c_plus; apply c_mult; assumption.
Qed.
Lemma cont_tdiv t y E : T_cont t E -> Y_cont y E -> Y_cont (fun x => tdiv (t x) (y x)) E.
Proof.
  intros [(A & B & C & D) (A' & B' & C' & D')] HY. unfold tdiv. apply (cont_tmul (fun x => mkT (t11 (t x)) (- t01 (t x)) (- t10 (t x)) (t00 (t x)) (d11 (t x)) (- d01 (t x)) (- d10 (t x)) (d00 (t x)))); auto.
  unfold T_cont; cbn [t00 t01 t10 t11 d00 d01 d10 d11].
  refine (conj (conj D (conj _ (conj _ A))) (conj D' (conj _ (conj _ A')))); apply c_opp; assumption.
Qed.
Lemma cont_reverse y E : Y_cont y E -> Y_cont (fun x => reverse (y x)) E.
Proof.
  intros [(P & Q) (P' & Q')]. unfold Y_cont, reverse; cbn [y0 y1 e0 e1]. split; split; try assumption; apply c_mult; try assumption; apply c_const.
Qed.

Section Run.
Variable calcT : sec -> R -> R -> bool -> Tm.
Variable vm : R.
Notation ydelta := (ydelta calcT vm).
Notation yprop := (yprop calcT vm).
Notation runY := (runY calcT vm).
Notation propagateDelta := (propagateDelta calcT vm).

Lemma ydelta_cont s u d y E : (forall x, T_cont (fun E => calcT s E x u) E) -> Y_cont y E -> Y_cont (fun x => ydelta s x u d (y x)) E.
Proof.
  intros D H. unfold P_Core.ydelta, M_Core.propagateDelta; cbn [fst].
  destruct (dir_eqb (sdir s) Dbwd).
  - destruct (Rleb 0 _); apply cont_reverse; [apply (cont_tmul (fun x => calcT s x _ u) (fun x => reverse (y x)))|apply (cont_tdiv (fun x => calcT s x _ u) (fun x => reverse (y x)))]; auto; apply cont_reverse; auto.
  - destruct (Rleb 0 _); [apply (cont_tmul (fun x => calcT s x _ u) y)|apply (cont_tdiv (fun x => calcT s x _ u) y)]; auto.
Qed.
Lemma Y_cont_ext (y w : R -> Y) E : (forall x, y x = w x) -> Y_cont y E -> Y_cont w E.
Proof.
  intros H [(A & B) (C & D)]. assert (K : forall f : Y -> R, continuous (fun x => f (y x)) E -> continuous (fun x => f (w x)) E).
  { intros f Q. apply (continuous_ext (fun x => f (y x))); [intro x; rewrite H; reflexivity|exact Q]. }
  split; split; [apply (K y0 A)|apply (K y1 B)|apply (K e0 C)|apply (K e1 D)].
Qed.
Lemma yprop_cont s a b u y E : (forall x, T_cont (fun E => calcT s E x u) E) -> Y_cont y E -> Y_cont (fun x => yprop s x a b u (y x)) E.
Proof.
  intros D H. unfold P_Core.yprop, M_Core.sprop. cbv zeta. destruct (negb _); [|exact H].
  assert (Two : forall d1 d2, Y_cont (fun x => fst (propagateDelta s x u d2 (propagateDelta s x u d1 (y x, 0)))) E).
  { intros d1 d2. apply (Y_cont_ext (fun x => ydelta s x u d2 (ydelta s x u d1 (y x)))).
    - intro x. rewrite (pdelta_split calcT vm s x u d1). rewrite pdelta_split. reflexivity.
    - apply ydelta_cont; [exact D|]. apply ydelta_cont; assumption. }
  destruct (dir_eqb (sdir s) Dfwd).
  - destruct (Rltb (smin s) a); destruct (Rltb (smin s) b); [exact (Two _ _)|exact (ydelta_cont s u _ y E D H)|exact (ydelta_cont s u _ y E D H)|exact H].
  - destruct (Rltb a (smax s)); destruct (Rltb b (smax s)); [exact (Two _ _)|exact (ydelta_cont s u _ y E D H)|exact (ydelta_cont s u _ y E D H)|exact H].
Qed.
Lemma runY_cont ss a b u y E : (forall s x, In s ss -> T_cont (fun E => calcT s E x u) E) -> Y_cont y E -> Y_cont (fun x => runY ss x a b u (y x)) E.
Proof.
  revert y. induction ss as [|s ss IH]; intros y D H; [exact H|].
  apply (IH (fun x => yprop s x a b u (y x))); [intros; apply D; cbn; auto|].
  apply yprop_cont; auto. intros; apply D; cbn; auto.
Qed.
Lemma const_cont (y : Y) E : Y_cont (fun _ => y) E.
Proof. split; split; apply c_const. Qed.
End Run.

(** ** The tabulated formulas: every entry is continuous in E, for every potential *)
Lemma eta_nth_cont : forall n i (g : R -> R) E, (i < n)%nat -> continuous g E -> continuous (fun x => nth i (eta_exact n (g x)) 0) E.
Proof.
  intros n i g E Hi Hg. apply (continuous_ext (fun x => eta i (g x))); [intro x; symmetry; apply eta_exact_nth, Hi|].
  apply (continuous_comp g (eta i)); [exact Hg|]. apply (ex_derive_continuous (eta i)). eexists. apply eta_derive.
Qed.
Lemma acc_eta_cont : forall n (base : R -> R) (c : nat -> R) (e : R -> nat -> R) E, continuous base E -> (forall i, (i < n)%nat -> continuous (fun x => e x i) E) ->
  continuous (fun x => acc_eta n (base x) c (e x)) E.
Proof.
  intros n base c e E Hb He. apply (continuous_ext (fun x => base x + rsum n (fun i => c i * e x i))); [intro x; symmetry; apply acc_eta_val|].
  apply c_plus; [exact Hb|]. induction n as [|n IH]; cbn [rsum]; [apply c_const|]. apply c_plus; [apply IH; intros; apply He; lia|]. apply c_mult; [apply c_const|apply He; lia].
Qed.
Ltac ccont := repeat first [assumption | apply c_const | apply continuous_id | apply c_plus | apply c_minus | apply c_opp | apply c_mult].
Lemma step_delta_cont : forall v h d E, T_cont (fun E => step_delta eta_exact v h E d) E.
Proof.
  intros v h d E. set (g := fun x : R => (v 0%nat - x) * (d * d)).
  assert (continuous g E) as Hg by (unfold g; ccont).
  assert (N : forall i, (i < ETA_delta)%nat -> continuous (fun x => nth i (eta_exact ETA_delta (g x)) 0) E) by (intros; apply eta_nth_cont; assumption).
  assert (N1 := N 1%nat ltac:(unfold ETA_delta; lia)). assert (N2 := N 2%nat ltac:(unfold ETA_delta; lia)).
  unfold T_cont, step_delta. cbv zeta. cbn [t00 t01 t10 t11 d00 d01 d10 d11].
  split; split; [|split; [|split]| |split; [|split]].
  all: match goal with |- continuous (fun x => acc_eta ?n (@?b x) ?c (@?e x)) _ => apply (acc_eta_cont n b c e) end.
  all: try (intros i Hi; apply N; assumption).
  all: try (intros i Hi; cbv beta; unfold Rdiv; apply c_mult; [apply c_mult; [apply c_const|apply N; unfold ETA_delta in *; lia]|apply c_const]).
  all: try apply c_const.
  - apply c_mult; [|exact N1]. ccont.
  - apply c_minus; [apply c_mult; [apply c_const|exact N1]|]. unfold Rdiv. apply c_mult; [|apply c_const]. apply c_mult; [ccont|exact N2].
Qed.
Lemma step_full_cont : forall v h E, T_cont (fun E => step_full eta_exact v h E) E.
Proof.
  intros v h E. set (g := fun x : R => (v 0%nat - x) * h * h).
  assert (continuous g E) as Hg by (unfold g; ccont).
  assert (N : forall i, (i < ETA_h)%nat -> continuous (fun x => nth i (eta_exact ETA_h (g x)) 0) E) by (intros; apply eta_nth_cont; assumption).
  assert (N1 := N 1%nat ltac:(unfold ETA_h; lia)). assert (N2 := N 2%nat ltac:(unfold ETA_h; lia)).
  unfold T_cont, step_full. cbv zeta. cbn [t00 t01 t10 t11 d00 d01 d10 d11].
  split; split; [|split; [|split]| |split; [|split]].
  all: match goal with |- continuous (fun x => acc_eta ?n (@?b x) ?c (@?e x)) _ => apply (acc_eta_cont n b c e) end.
  all: try (intros i Hi; apply N; assumption).
  all: try (intros i Hi; cbv beta; unfold Rdiv; apply c_mult; [apply c_mult; [apply c_const|apply N; unfold ETA_h in *; lia]|apply c_const]).
  all: try apply c_const.
  - apply c_mult; [|exact N1]. ccont.
  - apply c_plus; [apply c_mult; [apply c_const|exact N1]|]. unfold Rdiv. apply c_mult; [|apply c_const]. apply c_mult; [ccont|exact N2].
Qed.
Lemma calculateT_cont : forall s d u E, T_cont (fun E => calculateT eta_exact s E d u) E.
Proof.
  intros s d u E. unfold calculateT. cbv zeta. destruct (Rleb (Rabs d) EPS12); [split; repeat split; apply c_const|].
  destruct (u && Rleb (Rabs (d - sh s)) EPS12); [apply step_full_cont|apply step_delta_cont].
Qed.
Lemma calculateT_constant_deriv : forall s d u E, (forall k, (1 <= k <= 15)%nat -> nth k (spay s) 0 = 0) -> T_deriv (fun E => calculateT eta_exact s E d u) E.
Proof.
  intros s d u E Hv. unfold calculateT. cbv zeta. destruct (Rleb (Rabs d) EPS12).
  - unfold T_deriv, Tid. cbn [t00 t01 t10 t11 d00 d01 d10 d11]. split; [|split; [|split]]; apply @is_derive_const.
  - destruct (u && Rleb (Rabs (d - sh s)) EPS12).
    + pose proof (full_constant_dE 0 ltac:(lia) (fun k => nth k (spay s) 0) (sh s) E Hv) as D0. pose proof (full_constant_dE 1 ltac:(lia) (fun k => nth k (spay s) 0) (sh s) E Hv) as D1.
      pose proof (full_constant_dE 2 ltac:(lia) (fun k => nth k (spay s) 0) (sh s) E Hv) as D2. pose proof (full_constant_dE 3 ltac:(lia) (fun k => nth k (spay s) 0) (sh s) E Hv) as D3.
      unfold T_deriv; split; [exact D0|]; split; [exact D1|]; split; [exact D2|exact D3].
    + pose proof (C16_constant_potential 0 ltac:(lia) (fun k => nth k (spay s) 0) (sh s) E d Hv) as D0. pose proof (C16_constant_potential 1 ltac:(lia) (fun k => nth k (spay s) 0) (sh s) E d Hv) as D1.
      pose proof (C16_constant_potential 2 ltac:(lia) (fun k => nth k (spay s) 0) (sh s) E d Hv) as D2. pose proof (C16_constant_potential 3 ltac:(lia) (fun k => nth k (spay s) 0) (sh s) E d Hv) as D3.
      unfold T_deriv; split; [exact D0|]; split; [exact D1|]; split; [exact D2|exact D3].
Qed.

(** ** The matching error as a function of E *)
Section Err.
Variable calcT : sec -> R -> R -> bool -> Tm.
Variable vm : R.
Variables (l : list sec) (m : Z) (sm : sec) (lo hi : R) (left right : Y) (u : bool).
Hypothesis PT : partition lo hi l.
Hypothesis Ho : forall s, In s l -> smin s < smax s.
Hypothesis Hm : vget l m = Ret sm.
Notation c := (smax sm).
Notation me := (me_of calcT vm l m lo hi left right).
Definition Lv (E : R) : Y := runY calcT vm l E lo c u left.
Definition Rv (E : R) : Y := runY calcT vm (if Rleb hi c then l else rev l) E hi c u right.

Lemma err_val : forall E, err_of me u E = y1 (Lv E) * y0 (Rv E) - y1 (Rv E) * y0 (Lv E).
Proof using PT Ho Hm.
  intro E. destruct (matchingError_val calcT vm l m lo hi E left right u sm PT ltac:(intros s Hs; left; apply Ho, Hs) Hm) as (tl & tr & _ & _ & Q).
  unfold err_of, me_of. rewrite Q. reflexivity.
Qed.
Lemma der_val : forall E, der_of me u E = e1 (Lv E) * y0 (Rv E) + y1 (Lv E) * e0 (Rv E) - (e1 (Rv E) * y0 (Lv E) + y1 (Rv E) * e0 (Lv E)).
Proof using PT Ho Hm.
  intro E. destruct (matchingError_val calcT vm l m lo hi E left right u sm PT ltac:(intros s Hs; left; apply Ho, Hs) Hm) as (tl & tr & _ & _ & Q).
  unfold der_of, me_of. rewrite Q. reflexivity.
Qed.
Lemma in_dir : forall s, In s (if Rleb hi c then l else rev l) -> In s l.
Proof. intros s. destruct (Rleb hi c); [auto|]. intro H. apply in_rev. exact H. Qed.
Lemma err_deriv : forall E, (forall s d, In s l -> T_deriv (fun E => calcT s E d u) E) -> e0 left = 0 -> e1 left = 0 -> e0 right = 0 -> e1 right = 0 ->
  is_derive (err_of me u) E (der_of me u E) /\ Y_deriv Lv E /\ Y_deriv Rv E.
Proof using PT Ho Hm.
  intros E D L0 L1 R0 R1.
  assert (forall y : Y, e0 y = 0 -> e1 y = 0 -> Y_deriv (fun _ => y) E) as K by (intros y A B; split; [rewrite A|rewrite B]; apply @is_derive_const).
  assert (Y_deriv Lv E) as DL by (apply (runY_deriv calcT vm l lo c u (fun _ => left)); auto).
  assert (Y_deriv Rv E) as DR by (apply (runY_deriv calcT vm _ hi c u (fun _ => right)); [intros s d Hs; apply D, in_dir, Hs|auto]).
  split; [|split; assumption]. rewrite der_val. apply (is_derive_ext (fun E => y1 (Lv E) * y0 (Rv E) - y1 (Rv E) * y0 (Lv E))); [intro t; symmetry; apply err_val|].
  destruct DL, DR. evar_last; [apply is_derive_minusR; apply is_derive_multR; eassumption|]. cbn. ring.
Qed.
Lemma der_cont : forall E, (forall s d, In s l -> T_cont (fun E => calcT s E d u) E) -> continuous (der_of me u) E.
Proof using PT Ho Hm.
  intros E D. apply (continuous_ext (fun E => e1 (Lv E) * y0 (Rv E) + y1 (Lv E) * e0 (Rv E) - (e1 (Rv E) * y0 (Lv E) + y1 (Rv E) * e0 (Lv E)))); [intro t; symmetry; apply der_val|].
  assert (Y_cont Lv E) as [(A & B) (A' & B')] by (apply (runY_cont calcT vm l lo c u (fun _ => left)); auto using const_cont).
  assert (Y_cont Rv E) as [(C & F) (C' & F')] by (apply (runY_cont calcT vm _ hi c u (fun _ => right)); [intros s d Hs; apply D, in_dir, Hs|apply const_cont]).
  apply c_minus; apply c_plus; apply c_mult; assumption.
Qed.
End Err.

(** ** At an eigenvalue *)
Section Simple.
Variable calcT : sec -> R -> R -> bool -> Tm.
Variable vm : R.
Variables (l : list sec) (m : Z) (sm : sec) (lo hi : R) (V : R -> R) (left right : Y).
Hypothesis PT : partition lo hi l.
Hypothesis Hm : vget l m = Ret sm.
Hypothesis NL : nonzero left.
Hypothesis NR : nonzero right.
Hypothesis L0 : e0 left = 0. Hypothesis L1 : e1 left = 0. Hypothesis R0 : e0 right = 0. Hypothesis R1 : e1 right = 0.
Variables E eps : R.
Hypothesis He : 0 < eps.
Hypothesis X : forall E', Rabs (E' - E) < eps -> exact_at calcT V lo hi l (smax sm) left right E'.
Hypothesis TD : forall s d, In s l -> T_deriv (fun E => calcT s E d true) E.
Notation c := (smax sm).
Notation me := (me_of calcT vm l m lo hi left right).
Notation Lv := (Lv calcT vm l sm lo left true).
Notation Rv := (Rv calcT vm l sm hi right true).

Lemma Xself : exact_at calcT V lo hi l c left right E.
Proof using He X. apply X. rewrite Rminus_eq_0, Rabs_R0. exact He. Qed.
Lemma Xo : forall s, In s l -> smin s < smax s.
Proof using He X. intros s Hs. destruct Xself as (C & _). apply (C s Hs). Qed.
Lemma c_between : lo <= c <= hi /\ lo <= hi.
Proof using PT Hm He X.
  pose proof Xo as Ho. destruct (order_in l lo hi PT Ho) as [Hlh O]. destruct (O sm (vget_In l m sm Hm)) as [O1 O2]. pose proof (Ho sm (vget_In l m sm Hm)). lra.
Qed.
(** the run values are those of the solutions starting with the boundary values *)
Lemma run_left : forall E', Rabs (E' - E) < eps -> forall z z', solution V E' lo hi l z z' -> z lo = y0 left -> z' lo = y1 left -> y0 (Lv E') = z c /\ y1 (Lv E') = z' c.
Proof using PT Hm NL He X.
  intros E' HE' z z' Sol A B. destruct (X E' HE') as (CL & _). pose proof Xo as Ho. destruct c_between as [Hc Hlh].
  destruct (resolved_bounded V l ltac:(intros s Hs; apply (CL s Hs))) as (M & HM & Bd).
  assert (nontrivial z z' lo hi) as Nz. { apply (nontrivial_at V l lo hi M PT Ho Bd HM E' z z' lo Sol ltac:(lra)). rewrite A, B. exact NL. }
  destruct (propagate_exact calcT vm l lo hi PT V E' z z' Sol Nz Ho true lo c left CL ltac:(lra) ltac:(lra) ltac:(lra) ltac:(lra)) as (Z & t & p & P & P0 & P1 & _).
  destruct (matchingError_val calcT vm l m lo hi E' left right true sm PT ltac:(intros s Hs; left; apply Ho, Hs) Hm) as (tl & tr & Q1 & _ & _).
  rewrite P in Q1. injection Q1 as -> _. split; assumption.
Qed.
Lemma run_right : forall E', Rabs (E' - E) < eps -> forall z z', solution V E' lo hi l z z' -> z hi = y0 right -> z' hi = y1 right -> y0 (Rv E') = z c /\ y1 (Rv E') = z' c.
Proof using PT Hm NR He X.
  intros E' HE' z z' Sol A B. destruct (X E' HE') as (CL & CR & _). pose proof Xo as Ho. destruct c_between as [Hc Hlh].
  destruct (resolved_bounded V l ltac:(intros s Hs; apply (CL s Hs))) as (M & HM & Bd).
  assert (nontrivial z z' lo hi) as Nz. { apply (nontrivial_at V l lo hi M PT Ho Bd HM E' z z' hi Sol ltac:(lra)). rewrite A, B. exact NR. }
  destruct (propagate_exact calcT vm l lo hi PT V E' z z' Sol Nz Ho true hi c right CR ltac:(lra) ltac:(lra) ltac:(lra) ltac:(lra)) as (Z & t & p & P & P0 & P1 & _).
  destruct (matchingError_val calcT vm l m lo hi E' left right true sm PT ltac:(intros s Hs; left; apply Ho, Hs) Hm) as (tl & tr & _ & Q1 & _).
  rewrite P in Q1. injection Q1 as -> _. split; assumption.
Qed.

Lemma simple_root : forall k, eigen_index V lo hi l left right k E ->
  err_of me true E = 0 /\ der_of me true E <> 0.
Proof using PT Hm NL NR L0 L1 R0 R1 He X TD.
  intros k (z & z' & zs & Sol & Nz & BL & BR & _). pose proof Xself as X0. pose proof Xo as Ho. destruct c_between as [Hc Hlh].
  destruct (resolved_bounded V l ltac:(intros s Hs; apply (proj1 X0 s Hs))) as (B & HB0 & HB).
  destruct (parallel (z lo) (z' lo) (y0 left) (y1 left) (Nz lo ltac:(lra)) NL BL) as (kl & Nkl & K0 & K1).
  destruct (parallel (z hi) (z' hi) (y0 right) (y1 right) (Nz hi ltac:(lra)) NR BR) as (kr & Nkr & K2 & K3).
  assert (Rabs (E - E) < eps) as Hself by (rewrite Rminus_eq_0, Rabs_R0; exact He).
  pose proof (scaled l lo hi E V z z' Sol) as Sc.
  destruct (run_left E Hself _ _ (Sc kl) ltac:(cbv beta; lra) ltac:(cbv beta; lra)) as [A0 A1].
  destruct (run_right E Hself _ _ (Sc kr) ltac:(cbv beta; lra) ltac:(cbv beta; lra)) as [C0 C1]. cbv beta in A0, A1, C0, C1.
  destruct (err_deriv calcT vm l m sm lo hi left right true PT Ho Hm E TD L0 L1 R0 R1) as (_ & DL & DR).
  rewrite (err_val calcT vm l m sm lo hi left right true PT Ho Hm), (der_val calcT vm l m sm lo hi left right true PT Ho Hm).
  split; [rewrite A0, A1, C0, C1; ring|].
  assert (is_RInt (fun x => (kl * z x) * (kl * z x)) lo c (Wr (Lv E))) as I1.
  { apply (lagrange V l lo hi B (proj2 PT) ltac:(intros s Hs; left; apply Ho, Hs) HB0 HB E _ _ (Sc kl) lo c Lv eps); try lra; auto.
    intros E' HE'. destruct (X E' HE') as (_ & _ & (w & w' & Sw & W0 & W1) & _). exists w, w'. split; [exact Sw|]. split; [lra|]. split; [lra|]. apply (run_left E' HE' w w' Sw W0 W1). }
  assert (is_RInt (fun x => (kr * z x) * (kr * z x)) hi c (Wr (Rv E))) as I2.
  { apply (lagrange V l lo hi B (proj2 PT) ltac:(intros s Hs; left; apply Ho, Hs) HB0 HB E _ _ (Sc kr) hi c Rv eps); try lra; auto.
    intros E' HE'. destruct (X E' HE') as (_ & _ & _ & (w & w' & Sw & W0 & W1)). exists w, w'. split; [exact Sw|]. split; [lra|]. split; [lra|]. apply (run_right E' HE' w w' Sw W0 W1). }
  apply is_RInt_swap in I2.
  assert (forall k a b v, k <> 0 -> is_RInt (fun x => (k * z x) * (k * z x)) a b v -> is_RInt (fun x => z x * z x) a b (v / (k * k))) as SC.
  { intros k' a b v Hk H. apply (is_RInt_scal _ _ _ (/ (k' * k'))) in H. replace (v / (k' * k')) with (scal (/ (k' * k')) v) by (unfold scal; cbn; unfold mult; cbn; field; exact Hk).
    eapply is_RInt_ext; [|exact H]. intros x _. unfold scal; cbn; unfold mult; cbn. field. exact Hk. }
  apply (SC kl _ _ _ Nkl) in I1. apply (SC kr _ _ _ Nkr) in I2.
  pose proof (is_RInt_Chasles _ _ _ _ _ _ I1 I2) as P. change (is_RInt (fun x => z x * z x) lo hi (Wr (Lv E) / (kl * kl) + - Wr (Rv E) / (kr * kr))) in P.
  pose proof (square_pos l lo hi E V PT Ho z z' Sol Nz _ P) as Pos. clear P I1 I2 SC DL DR.
  unfold Wr in Pos. rewrite A0, A1, C0, C1 in Pos |- *.
  set (a := e0 (Lv E)) in *. set (b := e1 (Lv E)) in *. set (p := e0 (Rv E)) in *. set (q := e1 (Rv E)) in *. set (v := z c) in *. set (v' := z' c) in *. clearbody a b p q v v'.
  intro Z. assert (kl * kr <> 0) as Nk by (apply Rmult_integral_contrapositive_currified; assumption).
  assert ((a * (kl * v') - b * (kl * v)) / (kl * kl) + - (p * (kr * v') - q * (kr * v)) / (kr * kr) = - (b * (kr * v) + kl * v' * p - (q * (kl * v) + kr * v' * a)) / (kl * kr)) as Q by (field; split; assumption).
  rewrite Q, Z in Pos. unfold Rdiv in Pos. rewrite Ropp_0, Rmult_0_l in Pos. lra.
Qed.
End Simple.
