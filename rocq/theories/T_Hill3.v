(** C71: the periodic searches terminate for every problem whose steps are exact. *)
From Coq Require Import String Reals Ranalysis5 ZArith Lra Lia Bool.
From Coquelicot Require Import Coquelicot.
From Coq Require Import List.
From Verif Require Import Base M_Search M_Sectors S_Sectors P_Lookup M_Core S_Core P_Core P_Core2 P_Prufer S_Eta P_Eta S_Formulas M_Formulas P_Terms2 S_Accuracy S_Zeros P_Lift P_Lift2 P_Cross P_Global2 P_Global3 P_Global5 P_Step P_Step2 P_Count P_Count2 P_Constant P_Sturm P_Sturm2 P_Sturm3 T_Core T_Zeros S_Search T_Search T_Sturm M_Periodic T_Periodic S_Hill P_Hill P_Hill2 P_Hill3 P_Hill4 T_Hill T_Hill2.
Import ListNotations.
Open Scope R_scope.

Section Hill.
Variable calcT : sec -> R -> R -> bool -> Tm.
Variable vm : R.
Variables (l : list sec) (m : Z) (sm : sec) (lo hi : R) (V : R -> R) (sg : R).
Hypothesis PT : partition lo hi l.
Hypothesis Hm : vget l m = Ret sm.
Hypothesis Hsm : smax sm < hi.
Hypothesis Hsg : sg * sg = 1.
Hypothesis X : forall E, hill_exact calcT V lo hi l (smax sm) E.
Notation err := (hill_err calcT vm l m lo hi (Kscal sg)).
Notation derr := (hill_derr calcT vm l m lo hi (Kscal sg)).
Notation tmin := (hill_tmin calcT vm l m lo hi (Kscal sg)).
Notation tmax := (hill_tmax calcT vm l m lo hi (Kscal sg)).
Notation hill := (hill_eigen V lo hi l sg).

(** towards low energies the smaller angle difference falls below 0 and the larger below 1 *)
Theorem C71_low : exists E0, forall E, E <= E0 -> tmin E <= 0 /\ tmax E < 1.
Proof using PT Hm Hsm Hsg X.
  destruct (geometry calcT l m sm lo hi V PT Hm Hsm 0 (X 0)) as (Ho & Hlh & M & HM & B). pose proof PIpos as HP.
  exists (- M - 2). intros E HE. assert (tmin E <= 0) as T; [|split; [exact T|apply (tmax_one calcT vm l m sm lo hi V sg PT Hm Hsm Hsg X E T)]].
  destruct (matching_exact calcT vm l m sm lo hi V sg PT Hm Hsm Hsg E (X E)) as (p & p' & q & q' & f & g & Sp & Sq & P0 & P1 & Q0 & Q1 & Np & Nq & Af & Ag & F1 & F2 & G1 & G2 & EE & Em & Ex).
  rewrite Em. eapply Rle_trans; [apply Rmin_l|]. set (c := col_diff _ _ _ _ _ _ _ _ _ _) in *. destruct (Rle_lt_dec c 0) as [|C]; [assumption|]. apply (F2 0%Z) in C. exfalso.
  assert (turned V l lo hi E (f lo) (f hi)) as Tf by (exists p, p', f; auto).
  destruct (solvable calcT l m sm lo hi V PT Hm Hsm E (PI / 4) (X E)) as [b Tb].
  pose proof (turned_below l lo hi PT Ho Hlh V M B E b ltac:(lra) Tb) as Lb.
  assert (multiple_of_pi (f lo - PI / 4)) as [k Ek].
  { apply (angles_pi 1 1); [left; lra| |rewrite cos_PI4, sin_PI4; ring]. pose proof (proj2 Af lo ltac:(lra)) as Q. cbv beta in Q. rewrite P0, P1 in Q. lra. }
  pose proof (turned_mult V l lo hi M PT Ho B HM Hlh E _ _ _ _ Tf Tb (or_introl (ex_intro _ k Ek))) as Q. lra.
Qed.
(** towards high energies both pass every number *)
Theorem C71_high : forall N : Z, exists E0, forall E, E0 <= E -> IZR N < tmin E.
Proof using PT Hm Hsm Hsg X.
  intro N. destruct (geometry calcT l m sm lo hi V PT Hm Hsm 0 (X 0)) as (Ho & Hlh & M & HM & B). pose proof PIpos as HP.
  set (k := S (Z.to_nat N)). set (w := INR k * PI / (hi - lo)).
  exists (M + w * w + 1). intros E HE.
  destruct (matching_exact calcT vm l m sm lo hi V sg PT Hm Hsm Hsg E (X E)) as (p & p' & q & q' & f & g & Sp & Sq & P0 & P1 & Q0 & Q1 & Np & Nq & Af & Ag & F1 & F2 & G1 & G2 & EE & Em & Ex).
  rewrite Em.
  assert (turned V l lo hi E (f lo) (f hi)) as Tf by (exists p, p', f; auto). assert (turned V l lo hi E (g lo) (g hi)) as Tg by (exists q, q', g; auto).
  assert (forall t x, In t l -> smin t < x < smax t -> V x + w * w < E) as BB. { intros t x Ht Hx. pose proof (B t x Ht Hx) as Q. apply Rabs_le_between in Q. lra. }
  pose proof (turned_more l lo hi PT Ho Hlh V k _ _ E ltac:(unfold k; lia) BB Tf) as Lf. pose proof (turned_more l lo hi PT Ho Hlh V k _ _ E ltac:(unfold k; lia) BB Tg) as Lg.
  assert (IZR N < INR k) as LN. { rewrite INR_IZR_INZ. apply IZR_lt. unfold k. lia. }
  assert (IZR N * PI < INR k * PI) as LP by (apply Rmult_lt_compat_r; lra).
  apply Rmin_glb_lt; [apply F2|apply G2]; lra.
Qed.
Lemma lows : exists E0, forall E, E <= E0 -> tmin E <= 0 /\ tmax E <= 1.
Proof using PT Hm Hsm Hsg X. destruct C71_low as [E0 H]. exists E0. intros E HE. destruct (H E HE). lra. Qed.
Lemma highs : forall N : Z, exists E0, forall E, E0 <= E -> IZR N + 2 <= tmax E.
Proof using PT Hm Hsm Hsg X.
  intro N. destruct (C71_high (N + 2)) as [E0 H]. exists E0. intros E HE. specialize (H E HE). rewrite plus_IZR in H. pose proof (order calcT vm l m sm lo hi V sg PT Hm Hsm Hsg X E). lra.
Qed.

(** the query by index terminates *)
Theorem C71_byIndex : forall (anti : bool) iMin iMax, (-1 <= iMin)%Z ->
  exists n out, forall fuel, (n <= fuel)%nat -> periodic_byIndex err derr tmin tmax fuel anti iMin iMax = Ret out.
Proof using PT Hm Hsm Hsg X.
  intros anti iMin iMax Hi.
  assert (G : settles (fun k => periodic_byIndex err derr tmin tmax k anti iMin iMax) (fun _ => True)).
  { unfold periodic_byIndex. eapply settles_bind.
    { destruct lows as [E0 H0]. apply (doubling_settles _ (-1) (- E0)); [lra|]. intros E HE. apply Rltb_false. change (tmin E <= IZR (Z.max (iMin - 2) 0)).
      assert (0 <= IZR (Z.max (iMin - 2) 0)) as P by (apply (IZR_le 0); lia). destruct (H0 E ltac:(lra)). lra. }
    intros eMin _. eapply settles_bind.
    { destruct (highs iMax) as [E0 H0]. apply (doubling_settles _ 1 E0); [lra|]. intros E HE. apply Rltb_false. change (IZR (iMax + 2) <= tmax E). rewrite plus_IZR. apply H0. lra. }
    intros eMax _.
    destruct (C43_total err derr tmin tmax eMin eMax iMin iMax eps8) with (anti := anti) as (n & out & G).
    - unfold eps8. cbn. lra.
    - exact lows.
    - apply highs.
    - exact Hi.
    - exists n, out. auto. }
  destruct G as (n & r & _ & G). exists n, r. exact G.
Qed.
(** the query by energies terminates, if the angle differences fit in an int *)
Theorem C71_range : forall (anti : bool) eMin eMax, tmin eMin < 2147483646 -> tmax eMax < 2147483646 ->
  exists n out, forall fuel, (n <= fuel)%nat -> periodic_eigenvalues err derr tmin tmax fuel anti eMin eMax = Ret out.
Proof using PT Hm Hsm Hsg X.
  intros anti eMin eMax L1 L2.
  assert (forall x, -1 < x < 2147483646 -> exists b, oint (itrunc x) = Ret b /\ (0 <= b)%Z) as TR.
  { intros x Hx. unfold itrunc. change (slt x (sofZ 0)) with (Rltb x 0). destruct (Rltb x 0) eqn:L; unfold ifloor, iceil, Conv_R, toint.
    - apply Rltb_true in L. assert (Rceil x = 0%Z) as -> by (apply P_SearchR.ceil_unique; cbn; lra). exists 0%Z. split; [reflexivity|lia].
    - apply Rltb_false in L. assert (0 <= Rfloor x < 2147483647)%Z as HF.
      { unfold Rfloor. destruct (base_Int_part x). assert (-1 < Int_part x)%Z by (apply lt_IZR; lra). split; [lia|apply lt_IZR; lra]. }
      exists (Rfloor x). split; [|lia]. replace (int_ok (Rfloor x)) with true; [reflexivity|]. symmetry. unfold int_ok. apply andb_true_intro. split; apply Z.leb_le; lia. }
  pose proof (order calcT vm l m sm lo hi V sg PT Hm Hsm Hsg X eMin) as O1. pose proof (order calcT vm l m sm lo hi V sg PT Hm Hsm Hsg X eMax) as O2.
  destruct (TR (tmin eMin) ltac:(lra)) as (a & Ea & Pa). destruct (TR (tmax eMax) ltac:(lra)) as (b & Eb & Pb).
  destruct (C43_total err derr tmin tmax eMin eMax (a - 1) (b + 1) eps8) with (anti := anti) as (n & out & G).
  - unfold eps8. cbn. lra.
  - exact lows.
  - apply highs.
  - lia.
  - exists n, out. intros fuel Hf. unfold periodic_eigenvalues. rewrite Ea, Eb. cbn [bind]. apply G, Hf.
Qed.

(** every index of the right parity belongs to an eigenvalue *)
Lemma level : forall t a b y, continuous_on t a b -> a <= b -> t a <= y <= t b -> exists x, a <= x <= b /\ t x = y.
Proof using.
  intros t a b y C L H. destruct (ivt (fun x => t x - y) a b L) as (z & Hz & Ez); [| |exists z; split; [exact Hz|lra]].
  - intros x Hx. apply continuity_pt_minus; [apply C, Hx|apply continuity_pt_const; intros ? ?; reflexivity].
  - assert (0 <= (y - t a) * (t b - y)) by (apply Rmult_le_pos; lra). lra.
Qed.
Theorem C71_exists : forall n, (0 <= n)%Z -> (Z.even n = true <-> sg = 1) -> exists E, hill n E.
Proof using vm PT Hm Hsm Hsg X.
  intros n Hn Par. destruct C71_low as [EL HL]. destruct (C71_high (n + 1)) as [EH HH].
  pose (a := Rmin EL EH). pose (b := EH). assert (a <= b) as Hab by apply Rmin_r. destruct (HL a (Rmin_l _ _)) as [La1 La2]. specialize (HH b (Rle_refl _)). rewrite plus_IZR in HH.
  assert (0 <= IZR n) as Hn0 by (apply (IZR_le 0); lia).
  destruct (cont calcT vm l m sm lo hi V sg PT Hm Hsm Hsg X a b) as (Ce & Ct & Cx).
  pose proof (order calcT vm l m sm lo hi V sg PT Hm Hsm Hsg X) as O.
  pose proof (rmin calcT vm l m sm lo hi V sg PT Hm Hsm Hsg X) as Rm. pose proof (rmax calcT vm l m sm lo hi V sg PT Hm Hsm Hsg X) as Rx.
  assert (forall x k, (Z.even k = true <-> sg = 1) -> tmin x = IZR k \/ tmax x = IZR k -> 0 <= err x) as Pos by (intros x k Pk T; apply (C67_sign calcT vm l m sm lo hi V sg PT Hm Hsm Hsg x k (X x) T), Pk).
  assert (forall x k, ~ (Z.even k = true <-> sg = 1) -> tmin x = IZR k \/ tmax x = IZR k -> err x <= -8) as Neg by (intros x k Pk T; apply (C67_sign calcT vm l m sm lo hi V sg PT Hm Hsm Hsg x k (X x) T), Pk).
  assert (forall x k, hill k x -> (0 <= k)%Z /\ Z.even k = Z.even n /\ IZR k - 1 < tmin x /\ tmax x < IZR k + 1) as Win.
  { intros x k Hk. destruct (C67_parity calcT l m sm lo hi V sg PT Hm Hsm Hsg x k (X x) Hk) as [K0 K1]. split; [exact K0|]. split; [|apply (C67_window calcT vm l m sm lo hi V sg PT Hm Hsm Hsg x k (X x) Hk)].
    destruct (Z.even k), (Z.even n); try reflexivity; exfalso; [assert (false = true) by (apply Par, K1; reflexivity)|assert (false = true) by (apply K1, Par; reflexivity)]; discriminate. }
  assert (forall x y, a <= x <= y -> y <= b -> err x * err y <= 0 -> exists z, x <= z <= y /\ err z = 0 /\ exists k, hill k z) as Zero.
  { intros x y Hx Hy S. destruct (ivt err x y ltac:(lra)) as (z & Hz & Ez); [intros u Hu; apply Ce; lra|exact S|]. exists z. split; [exact Hz|]. split; [exact Ez|].
    apply (C67_zero calcT vm l m sm lo hi V sg PT Hm Hsm Hsg z (X z)), Ez. }
  destruct (Z.eq_dec n 0) as [-> |Hn1].
  - assert (sg = 1) as S1 by (apply Par; reflexivity).
    destruct (level tmax a b 1 Cx Hab ltac:(pose proof (O b); cbn in HH; lra)) as (y & Hy & Ty).
    assert (err y <= -8) as N1. { apply (Neg y 1%Z); [|right; exact Ty]. rewrite S1. intros [_ C]. specialize (C eq_refl). discriminate. }
    assert (0 <= err a) as P0 by (apply (C68_below calcT vm l m sm lo hi V sg PT Hm Hsm Hsg a (X a) La1); exact S1).
    destruct (Zero a y ltac:(lra) ltac:(lra)) as (z & Hz & Ez & k & Hk). { assert (0 <= err a * - err y) by (apply Rmult_le_pos; lra). lra. }
    destruct (Win z k Hk) as (K0 & K1 & K2 & K3). pose proof (O z) as Oz.
    assert (z < y) as Lzy. { destruct (proj2 Hz) as [|Q]; [assumption|]. rewrite Q in Ez. lra. }
    assert (tmax z < 1) as T1. { destruct (Rlt_le_dec (tmax z) 1) as [|C]; [assumption|]. pose proof (Rx z y 1%Z z y (Rle_refl _) Lzy (Rle_refl _) C). lra. }
    assert (k < 2)%Z as K4 by (apply lt_IZR; lra). exists z. destruct (Z.eq_dec k 0) as [-> |]; [exact Hk|]. assert (k = 1)%Z as -> by lia. discriminate.
  - assert (IZR (n - 1) = IZR n - 1) as Em by (rewrite minus_IZR; reflexivity). assert (1 <= IZR n) as Hn2 by (apply (IZR_le 1); lia).
    destruct (level tmin a b (IZR (n - 1)) Ct Hab ltac:(lra)) as (x & Hx & Tx). destruct (level tmin a b (IZR n) Ct Hab ltac:(lra)) as (y & Hy & Ty).
    assert (x <= y) as Lxy. { destruct (Rle_lt_dec x y) as [|C]; [assumption|]. pose proof (Rm y x n y x (Rle_refl _) C (Rle_refl _) ltac:(lra)). lra. }
    assert (0 <= err y) as P0 by (apply (Pos y n Par); auto).
    assert (err x <= -8) as N1. { apply (Neg x (n - 1)%Z); [|auto]. rewrite Z.even_sub. change (Z.even 1) with false. intro C. destruct (Z.even n) eqn:Ev; cbn in C.
      - assert (false = true) by (apply C, Par; reflexivity). discriminate.
      - assert (false = true) by (apply Par, C; reflexivity). discriminate. }
    destruct (Zero x y ltac:(lra) ltac:(lra)) as (z & Hz & Ez & k & Hk). { assert (0 <= err y * - err x) by (apply Rmult_le_pos; lra). lra. }
    destruct (Win z k Hk) as (K0 & K1 & K2 & K3). pose proof (O z) as Oz.
    assert (IZR n - 1 <= tmin z) as T1. { destruct (proj1 Hz) as [L| <-]; [|lra]. pose proof (Rm x z (n - 1)%Z x z (Rle_refl _) L (Rle_refl _) ltac:(lra)). lra. }
    assert (tmin z <= IZR n) as T2. { destruct (Rle_lt_dec (tmin z) (IZR n)) as [|C]; [assumption|]. destruct (proj2 Hz) as [L| ->]; [|lra]. pose proof (Rm z y n z y (Rle_refl _) L (Rle_refl _) ltac:(lra)). lra. }
    assert (k < n + 1)%Z as K4 by (apply lt_IZR; rewrite plus_IZR; lra). assert (n - 2 < k)%Z as K5 by (apply lt_IZR; rewrite minus_IZR; lra).
    exists z. destruct (Z.eq_dec k n) as [-> |]; [exact Hk|]. assert (k = n - 1)%Z as -> by lia. rewrite Z.even_sub in K1. change (Z.even 1) with false in K1. destruct (Z.even n); discriminate.
Qed.
End Hill.

(** no assumption on the step matrices: piecewise constant potentials, the step matrices of the code over exact eta functions *)
Theorem C71_piecewise_constant : forall V lo hi l vm m sm sg, constant_problem V lo hi l -> vget l m = Ret sm -> smax sm < hi -> sg * sg = 1 ->
  let err := hill_err (calculateT eta_exact) vm l m lo hi (Kscal sg) in let derr := hill_derr (calculateT eta_exact) vm l m lo hi (Kscal sg) in
  let tmin := hill_tmin (calculateT eta_exact) vm l m lo hi (Kscal sg) in let tmax := hill_tmax (calculateT eta_exact) vm l m lo hi (Kscal sg) in
  (forall n, (0 <= n)%Z -> (Z.even n = true <-> sg = 1) -> exists E, hill_eigen V lo hi l sg n E) /\
  (forall (anti : bool) iMin iMax, (-1 <= iMin)%Z -> exists n out, forall fuel, (n <= fuel)%nat -> periodic_byIndex err derr tmin tmax fuel anti iMin iMax = Ret out) /\
  (forall (anti : bool) eMin eMax, tmin eMin < 2147483646 -> tmax eMax < 2147483646 ->
     exists n out, forall fuel, (n <= fuel)%nat -> periodic_eigenvalues err derr tmin tmax fuel anti eMin eMax = Ret out).
Proof.
  intros V lo hi l vm m sm sg PC Hm Hsm Hsg. pose proof PC as [PT _]. pose proof (fun E left right => constant_exact_at V lo hi l m sm left right E PC Hm) as X.
  split; [apply (C71_exists (calculateT eta_exact) vm l m sm lo hi V sg PT Hm Hsm Hsg X)|]. split; [apply (C71_byIndex (calculateT eta_exact) vm l m sm lo hi V sg PT Hm Hsm Hsg X)|apply (C71_range (calculateT eta_exact) vm l m sm lo hi V sg PT Hm Hsm Hsg X)].
Qed.
(** the hypotheses hold for a potential with a step, antiperiodic: V = 0 on [0, 1/2], 10 on [1/2, 1] *)
Definition step_sectors : list sec := [mkSector 0 (1 / 2) Dfwd [0]; mkSector (1 / 2) 1 Dbwd [10]].
Definition step_V (x : R) : R := if Rltb x (1 / 2) then 0 else 10.
Example C71_case : constant_problem step_V 0 1 step_sectors /\ vget step_sectors 0 = Ret (mkSector 0 (1 / 2) Dfwd [0]) /\ (1 / 2 < 1) /\ (-1) * (-1) = 1.
Proof.
  split; [|split; [reflexivity|lra]].
  assert (/ 10 ^ 12 < 1 / 2). { replace (1 / 2) with (/ 2) by field. apply Rinv_lt_contravar; [apply Rmult_lt_0_compat; [lra|apply pow_lt; lra]|]. apply Rlt_le_trans with (10 ^ 1); [lra|]. apply Rle_pow; [lra|lia]. }
  split.
  - split; [discriminate|]. cbn. repeat split; reflexivity.
  - intros s [<-|[<-|[]]]; (split; [unfold directed; cbn; auto|]); (split; [unfold sh; cbn [smin smax]; lra|]); (split; [intros k Hk; destruct k as [|[|k]]; try lia; reflexivity|]); cbn [smin smax]; intros x Hx; unfold step_V.
    + rewrite (proj2 (Rltb_true x (1 / 2))) by lra. reflexivity.
    + rewrite (proj2 (Rltb_false x (1 / 2))) by lra. reflexivity.
Qed.
Print Assumptions C71_low.
Print Assumptions C71_high.
Print Assumptions C71_byIndex.
Print Assumptions C71_range.
Print Assumptions C71_exists.
Print Assumptions C71_piecewise_constant.
