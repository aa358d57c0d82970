(** C90: the conversions from floating point to int.  The eigenvalue index is obtained by converting (angle / pi) to int; in C++ such a
    conversion is undefined when the value is NaN or does not fit.  [C90_defined_partial]: when the angles that come up fit, no query
    has undefined behaviour.  The converse fails: a range that reaches far enough up is undefined behaviour for every piecewise constant
    problem ([C90_large_refuted]), and so is a NaN angle in double precision ([C90_nan_refuted]). *)
From Coq Require Import String Floats Reals ZArith QArith Lra Lia Bool.
From Coquelicot Require Import Coquelicot.
From Coq Require Import List.
From Verif Require Import Base M_Search M_Sectors S_Sectors M_Core S_Core S_Formulas M_Formulas S_Zeros P_Core2 P_Constant P_Sturm T_Core T_Zeros S_Search T_Search T_Sturm P_Sturm4 T_Bracket M_Bindings T_Bindings.
Import ListNotations.

(** a conversion to int is defined *)
Definition defined {A} (r : res A) : Prop := forall s, r <> UB s.
Definition converts {A} (o : option A) : Prop := o <> None.

Lemma bind_defined : forall A B (r : res A) (k : A -> res B), defined r -> (forall a, r = Ret a -> defined (k a)) -> defined (bind r k).
Proof. intros A B r k D K s. destruct r; cbn; try discriminate; [apply K; reflexivity|intro E; injection E as E; apply (D s); rewrite E; reflexivity]. Qed.
Lemma ret_defined : forall A (a : A), defined (Ret a).
Proof. intros A a s. discriminate. Qed.
Lemma fuel_defined : forall A, defined (@Fuel A).
Proof. intros A s. discriminate. Qed.
Lemma oint_defined : forall o, converts o -> defined (oint o).
Proof. intros [z|] C s; [discriminate|]. elim C. reflexivity. Qed.

Section Defined.
Context {T : Type} `{Scalar T} `{Conv T}.
Variable me : T -> bool -> T * T * T.
Variable tol : T.
(** every angle (in units of pi) converts to int, rounded down, up and to the nearest *)
Hypothesis fit : forall E u, let t := sdiv (snd (me E u)) spi in converts (ifloor t) /\ converts (iceil t) /\ converts (iround t).

Lemma newton_loop_angle : forall fuel i E u, defined (newton_loop me tol fuel i E u) /\ forall r, newton_loop me tol fuel i E u = Ret r -> exists E0, snd (fst r) = snd (me E0 u).
Proof using Type.
  induction fuel as [|f IH]; intros i E u; cbn [newton_loop]; [split; [apply fuel_defined|discriminate]|].
  destruct (me E u) as [[error derror] theta] eqn:M. cbv zeta. destruct ((i + 1 <? 20)%Z && slt tol (sabs (sdiv error derror))).
  - destruct (IH (i + 1)%Z (ssub E (sdiv error derror)) u) as [D A]. split.
    + apply bind_defined; [exact D|]. intros; apply ret_defined.
    + intros r. destruct (newton_loop me tol f (i + 1)%Z (ssub E (sdiv error derror)) u) eqn:L; cbn; try discriminate.
      intros [= <-]. cbn. apply (A a eq_refl).
  - split; [apply ret_defined|]. intros r [= <-]. cbn. exists E. rewrite M. reflexivity.
Qed.
Lemma newton_defined : forall E u, defined (newton me tol E u).
Proof using fit.
  intros E u. unfold newton. destruct (newton_loop_angle 20 0 E u) as [D A]. apply bind_defined; [exact D|]. intros [[E' theta] gs] L.
  destruct (A _ L) as [E0 E1]. cbn in E1. subst theta. apply bind_defined; [apply oint_defined; apply (fit E0 u)|]. intros; apply ret_defined.
Qed.
(** an interval of the queue carries angles at energies *)
Definition measured (it : item T) : Prop := (exists E, ta_ it = ang me E) /\ exists E, tb_ it = ang me E.
Lemma step_measured : forall Imin Imax it, measured it -> defined (step me Imin Imax it) /\ forall c l, step me Imin Imax it = Ret (Push c l) -> Forall measured l.
Proof using fit.
  intros Imin Imax [a ta b tb depth] [[Ea Ha] [Eb Hb]]. cbn in Ha, Hb. unfold step.
  assert (converts (iceil ta)) as Ca by (subst ta; apply (fit Ea true)). assert (converts (iceil tb)) as Cb by (subst tb; apply (fit Eb true)).
  destruct (iceil ta) as [ia|]; [|elim Ca; reflexivity]. destruct (iceil tb) as [ib|]; [|elim Cb; reflexivity]. cbn [oint bind].
  repeat match goal with |- context [if ?b then Ret _ else _] => destruct b; [split; [apply ret_defined|discriminate]|] end.
  match goal with |- context [ang me ?c] => set (cc := c) end.
  repeat match goal with |- context [if ?b then Ret _ else _] => destruct b; [split; [apply ret_defined|try discriminate; intros c0 l0 [= <- <-]; repeat constructor; cbn; eauto]|] end.
  split; [apply ret_defined|intros c0 l0 [= <- <-]; repeat constructor; cbn; eauto].
Qed.
Lemma bisect_defined : forall Imin Imax fuel queue, Forall measured queue -> defined (bisect me fuel Imin Imax queue).
Proof using fit.
  intros Imin Imax. induction fuel as [|f IH]; intros [|it rest] Q; cbn [bisect]; try apply ret_defined; try apply fuel_defined.
  apply Forall_cons_iff in Q as [Q1 Q2]. destruct (step_measured Imin Imax it Q1) as [D A]. apply bind_defined; [exact D|]. intros act E.
  destruct act; try (apply IH, Q2); (apply bind_defined; [|intros; apply ret_defined]); try (apply IH, Q2).
  apply IH. apply Forall_app. split; [exact Q2|]. apply (A _ _ E).
Qed.
Lemma mapM_defined : forall A B (f : A -> res B) l, (forall a, defined (f a)) -> defined (mapM f l).
Proof using Type.
  intros A B f l D. induction l as [|a l IH]; cbn; [apply ret_defined|]. apply bind_defined; [apply D|]. intros b _. apply bind_defined; [exact IH|]. intros; apply ret_defined.
Qed.
Lemma compute_defined : forall fuel Emin Emax Imin Imax, defined (computeEigenvalues me tol fuel Emin Emax Imin Imax).
Proof using fit.
  intros fuel Emin Emax Imin Imax. unfold computeEigenvalues. destruct (Imin <? 0)%Z; [intro; discriminate|]. destruct (Imax <? Imin)%Z; [intro; discriminate|].
  apply bind_defined; [apply bisect_defined; repeat constructor; cbn; eauto|]. intros r _. apply bind_defined; [|intros; apply ret_defined]. apply mapM_defined. intro. apply newton_defined.
Qed.
Lemma find_emax_defined : forall Imin Imax fuel a b, defined (find_emax me fuel Imin Imax a b).
Proof using fit.
  intros Imin Imax. induction fuel as [|f IH]; intros a b; cbn [find_emax]; [apply fuel_defined|]. apply bind_defined; [apply oint_defined; apply (fit b true)|].
  intros i _. destruct (Imax <=? i)%Z; [apply ret_defined|apply IH].
Qed.
Lemma find_emin_defined : forall Imin Imax fuel a b, defined (find_emin me fuel Imin Imax a b).
Proof using fit.
  intros Imin Imax. induction fuel as [|f IH]; intros a b; cbn [find_emin]; [apply fuel_defined|]. apply bind_defined; [apply oint_defined; apply (fit a true)|].
  intros i _. destruct (i <=? Imin)%Z; [apply ret_defined|apply IH].
Qed.
(** no query has undefined behaviour when every angle fits: by range, by index, and the error estimate *)
Theorem C90_defined_partial :
  (forall fuel Emin Emax s, eigenvalues me tol fuel Emin Emax <> UB s) /\
  (forall fuel Imin Imax s, eigenvaluesByIndex me tol fuel Imin Imax <> UB s) /\
  (forall E s, eigenvalueError me tol E <> UB s).
Proof using fit.
  split; [|split].
  - intros. apply compute_defined.
  - intros fuel Imin Imax. change (defined (eigenvaluesByIndex me tol fuel Imin Imax)). unfold eigenvaluesByIndex. apply bind_defined; [|intros; apply compute_defined].
    unfold bracket. apply bind_defined; [apply find_emax_defined|]. intros r _. destruct (seqb (fst r) (sofZ (-1))); [apply find_emin_defined|apply ret_defined].
  - intros E. change (defined (eigenvalueError me tol E)). apply bind_defined; [apply newton_defined|]. intros; apply ret_defined.
Qed.
End Defined.

(** the angle at the upper end is beyond int: the query is undefined behaviour, whatever the index window *)
Section Undefined.
Context {T : Type} `{Scalar T} `{Conv T}.
Variable me : T -> bool -> T * T * T.
Variable tol : T.
Lemma undefined_end : forall fuel Emin Emax Imin Imax, (0 <= Imin <= Imax)%Z -> iceil (ang me Emax) = None \/ iceil (ang me Emin) = None ->
  computeEigenvalues me tol (S fuel) Emin Emax Imin Imax = UB "float to int conversion".
Proof using Type.
  intros fuel Emin Emax Imin Imax [H1 H2] N. unfold computeEigenvalues. apply Z.ltb_ge in H1. rewrite H1. apply Z.ltb_ge in H2. rewrite H2.
  cbn [bisect step]. destruct N as [N|N]; rewrite N; [destruct (iceil (ang me Emin))|]; reflexivity.
Qed.
End Undefined.

Open Scope R_scope.
Lemma ceil_too_large : forall x, 2147483647 < x -> iceil x = None.
Proof.
  intros x Hx. cbn [iceil Conv_R]. unfold toint, int_ok, Rceil. destruct (Z.leb_spec (- Int_part (- x)) 2147483647) as [C|]; [exfalso|rewrite andb_false_r; reflexivity].
  destruct (base_Int_part (- x)) as [B1 _]. apply IZR_le in C. rewrite opp_IZR in C. lra.
Qed.
(** every piecewise constant problem: the query by range is undefined behaviour when the upper end of the range is large enough *)
Theorem C90_large_refuted : forall V lo hi l vm m sm left right, constant_problem V lo hi l -> vget l m = Ret sm -> smax sm < hi -> nonzero left -> nonzero right ->
  exists E0, forall Emin Emax tol fuel, E0 <= Emax -> eigenvalues (me_of (calculateT eta_exact) vm l m lo hi left right) tol (S fuel) Emin Emax = UB "float to int conversion".
Proof.
  intros V lo hi l vm m sm left right PC Hm Hsm NL NR. destruct (C72_piecewise_constant V lo hi l vm m sm left right PC Hm Hsm NL NR) as (_ & Hi & _).
  destruct (Hi 2147483647%Z) as [E0 H0]. exists E0. intros Emin Emax tol fuel HE. apply undefined_end; [lia|]. left. apply ceil_too_large. apply (H0 Emax HE).
Qed.
Example C90_case : exists E0, forall Emin Emax tol fuel, E0 <= Emax ->
  eigenvalues (me_of (calculateT eta_exact) 0 two_sectors 0 0 1 dirichlet dirichlet) tol (S fuel) Emin Emax = UB "float to int conversion".
Proof.
  apply (C90_large_refuted (fun _ => 0) 0 1 two_sectors 0 0 (mkSector 0 (1 / 2) Dfwd [0]) dirichlet dirichlet two_sectors_ok eq_refl); [cbn; lra|apply nz_dirichlet|apply nz_dirichlet].
Qed.
(** in exact arithmetic an angle (in units of pi) between -2^31 and 2^31 - 1 converts *)
Lemma fits : forall t : R, -2147483647 <= t <= 2147483646 -> converts (ifloor t) /\ converts (iceil t) /\ converts (iround t).
Proof.
  intros t B.
  assert (forall x (p q : Z), IZR p < x -> x < IZR q -> (p <= Int_part x < q)%Z) as I.
  { intros x p q H1 H2. destruct (base_Int_part x) as [C1 C2]. assert (IZR (p - 1) < IZR (Int_part x)) as D1 by (rewrite minus_IZR; lra). assert (IZR (Int_part x) < IZR q) as D2 by lra. apply lt_IZR in D1, D2. lia. }
  assert (forall z, (-2147483648 <= z <= 2147483647)%Z -> converts (toint z)) as Cv.
  { intros z Hz. unfold converts, toint, int_ok. destruct (Z.leb_spec (-2147483648) z); [|lia]. destruct (Z.leb_spec z 2147483647); [|lia]. discriminate. }
  cbn [ifloor iceil iround Conv_R]. unfold Rfloor, Rceil, Rround. pose proof (I t (-2147483648)%Z 2147483647%Z ltac:(lra) ltac:(lra)). pose proof (I (- t) (-2147483647)%Z 2147483648%Z ltac:(lra) ltac:(lra)).
  split; [apply Cv; lia|]. split; [apply Cv; lia|]. unfold Rleb. destruct (Rle_dec 0 t); apply Cv.
  - pose proof (I (t + / 2) (0)%Z 2147483647%Z ltac:(lra) ltac:(lra)). lia.
  - pose proof (I (- t + / 2) (0)%Z 2147483648%Z ltac:(lra) ltac:(lra)). lia.
Qed.
Theorem C90_exact_partial : forall (me : R -> bool -> R * R * R) tol, (forall E u, -2147483647 * PI <= snd (me E u) <= 2147483646 * PI) ->
  (forall fuel Emin Emax s, eigenvalues me tol fuel Emin Emax <> UB s) /\
  (forall fuel Imin Imax s, eigenvaluesByIndex me tol fuel Imin Imax <> UB s) /\
  (forall E s, eigenvalueError me tol E <> UB s).
Proof.
  intros me tol B. apply C90_defined_partial. intros E u t. apply fits. pose proof PI_RGT_0 as HP. unfold t. cbn [sdiv Scalar_R spi Conv_R]. destruct (B E u) as [B1 B2].
  split; apply (Rmult_le_reg_r PI); try exact HP; unfold Rdiv; rewrite Rmult_assoc, Rinv_l, ?Rmult_1_r; lra.
Qed.
(** an angle that grows with the energy but fits *)
Example C90_exact_case : forall fuel Emin Emax s, eigenvalues (fun E (_ : bool) => (sin E, cos E, atan E)) (1 / 10) fuel Emin Emax <> UB s.
Proof.
  apply C90_exact_partial. intros E u. cbn [snd]. pose proof PI_RGT_0 as HP. destruct (atan_bound E) as [B1 B2]. lra.
Qed.

(** double precision: a NaN angle at either end of the range (a potential that is infinite or NaN somewhere, boundary conditions
    with a NaN, an infinite energy) is undefined behaviour as well *)
Theorem C90_nan_refuted : forall (me : float -> bool -> float * float * float) tol fuel Emin Emax, is_nan (snd (me Emin true)) \/ is_nan (snd (me Emax true)) ->
  eigenvalues me tol (S fuel) Emin Emax = UB "float to int conversion".
Proof.
  assert (forall x : float, is_nan x -> iceil (sdiv x spi) = None) as N.
  { intros x Hx. apply nan_sf in Hx. cbn [iceil Conv_F sdiv Scalar_F]. unfold float_ceil, float_floorZ.
    rewrite FloatAxioms.opp_spec, FloatAxioms.div_spec, Hx. reflexivity. }
  intros me tol fuel Emin Emax H. apply undefined_end; [lia|]. destruct H as [H|H]; [right|left]; apply N, H.
Qed.
(** ... and so is an infinite one, or a finite one outside the range of int *)
Example C90_nan_case : eigenvalues (fun (E : float) (_ : bool) => (0, 1, E - E)%float) 0x1p-20%float 1 0%float infinity = UB "float to int conversion".
Proof. apply C90_nan_refuted. right. vm_compute. reflexivity. Qed.
Example C90_double_large : eigenvalues (fun (E : float) (_ : bool) => (0, 1, PrimFloat.sqrt E)%float) 0x1p-20%float 1 0%float 1e20%float = UB "float to int conversion".
Proof. vm_compute. reflexivity. Qed.

Print Assumptions C90_defined_partial.
Print Assumptions C90_exact_partial.
Print Assumptions C90_large_refuted.
Print Assumptions C90_nan_refuted.
Print Assumptions C90_case.
Print Assumptions C90_double_large.
