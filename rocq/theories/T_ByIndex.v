(** C83: the query by index from end to end, Newton's iteration included: on a whole interval and for a symmetric problem given by its right half. *)
From Coq Require Import String ZArith Reals Machin Lra Lia Bool.
From Coquelicot Require Import Coquelicot.
From Coq Require Import List Sorting.Sorted.
From Verif Require Import Base M_Search S_Search M_Sectors S_Sectors M_Core S_Core M_Half S_Accuracy S_Zeros S_Formulas M_Formulas P_Sturm2 P_Sturm3 T_Zeros T_Sturm T_Search T_Bracket T_Half S_Mirror P_Mirror T_Mirror T_Newton P_Prufer P_SearchR.
Import ListNotations.
Open Scope R_scope.

(** the answer to a query by index: one entry for each index from Imin to Imax - 1, in that order, each within eps of the eigenvalue with that index *)
Definition answers (eigen : Z -> R -> Prop) (eps : R) (Imin Imax : Z) (r : list (Z * R)) : Prop :=
  map fst r = range Imin Imax /\ Forall (fun p => exists E, eigen (fst p) E /\ Rabs (snd p - E) <= eps) r.
(** what the bisection of the query must meet: its energies are not eigenvalues, the eigenvalues are far enough apart for its smallest
    brackets, and the middle of each bracket it isolates is within rho of the eigenvalue in it *)
Definition good_run (V : R -> R) (lo hi : R) (l : list sec) (left right : Y) (me : R -> bool -> R * R * R) (fuel : nat) (Imin Imax : Z) (rho Emin Emax : R) : Prop :=
  not_eigenvalue V lo hi l left right Emin /\ not_eigenvalue V lo hi l left right Emax /\
  eigenvalues_apart V lo hi l left right Emin Emax ((Emax - Emin) / 2 ^ 31) /\
  exists leaves cuts, bisect me fuel Imin Imax (initial me Emin Emax) = Ret (leaves, cuts) /\ Forall (not_eigenvalue V lo hi l left right) cuts /\
    (forall lf k E, In lf leaves -> inside lf E -> eigen_index V lo hi l left right k E -> Rabs (lc lf - E) <= rho).

Theorem C83_by_index : forall V lo hi l vm m sm left right Imin Imax Q, constant_problem V lo hi l -> vget l m = Ret sm -> smax sm < hi -> nonzero left -> nonzero right -> fixed_ends left right ->
  (0 <= Imin <= Imax)%Z -> (Imax <= 2147483647)%Z -> 1 <= Q ->
  IZR Imax <= angle_difference (calculateT eta_exact) vm l m lo hi left right Q -> angle_difference (calculateT eta_exact) vm l m lo hi left right (2 * Q) <= 2147483647 ->
  let me := me_of (calculateT eta_exact) vm l m lo hi left right in
  exists rho0 n Emin Emax, 0 < rho0 /\ Emin < Emax /\ (forall fuel, (n < fuel)%nat -> bracket me fuel Imin Imax = Ret (Emin, Emax)) /\
    forall rho tol fuel, rho <= rho0 -> (n < fuel)%nat -> (2 ^ 32 <= Z.of_nat fuel)%Z -> good_run V lo hi l left right me fuel Imin Imax rho Emin Emax ->
    exists r, eigenvaluesByIndex me tol fuel Imin Imax = Ret r /\ answers (eigen_index V lo hi l left right) (Rmax tol (rho / 2 ^ 20)) Imin Imax r.
Proof.
  intros V lo hi l vm m sm left right Imin Imax Q PC Hm Hsm NL NR FE HI HI2 HQ1 HQ2 HQ3 me.
  destruct (C72_piecewise_constant V lo hi l vm m sm left right PC Hm Hsm NL NR) as (EU & _ & B).
  destruct (B Imin Imax Q (proj1 HI) HQ1 HQ2 HQ3) as (n & Emin & Emax & B1 & B2 & B3 & _ & B5). clear B.
  destruct (C81_search V lo hi l vm m sm left right (Z.to_nat Imax) PC Hm Hsm NL NR FE) as (rho0 & Hr & S). cbv zeta in S.
  exists rho0, n, Emin, Emax. split; [exact Hr|]. split; [exact B2|]. split; [exact B1|].
  intros rho tol fuel Hrho Hn Hf (N1 & N2 & HA & leaves & cuts & Hb & Hc & Near).
  destruct (S rho tol Emin Emax Imin Imax fuel leaves cuts Hrho B2 N1 N2 HA B5 Hf HI ltac:(lia) HI2 Hb Hc Near) as (r & Er & R1 & R2 & R3).
  exists r. split; [unfold eigenvaluesByIndex, me; rewrite B1 by exact Hn; exact Er|]. split.
  - apply sorted_ext; [apply sorted_map, R3|apply range_sorted|]. intro k. rewrite range_In, in_map_iff. split.
    + intros ([k' E'] & <- & I). cbn [fst]. apply (R2 k' E' I).
    + intro Hk. destruct (EU k ltac:(lia)) as (E & HE & _). destruct (B3 k E Hk HE) as [[L|L] L2].
      * destruct (R1 k E Hk ltac:(lra) HE) as (E' & I & _). exists (k, E'). split; [reflexivity|exact I].
      * exfalso. rewrite <- L in HE. apply (N1 k HE).
  - rewrite Forall_forall. intros [k E'] I. cbn [fst snd]. destruct (R2 k E' I) as (_ & E & _ & HE & HD). exists E. split; assumption.
Qed.

(** half_byIndex asks the Neumann problem for indices ceil(Imin / 2) .. ceil(Imax / 2) - 1 and the Dirichlet problem for floor(Imin / 2) .. floor(Imax / 2) - 1 *)
Lemma half_queries : forall (half : Y -> Z -> R -> Prop) (query : Y -> Z -> Z -> res (list (Z * R))) eps Imin Imax e o, (0 <= Imin <= Imax)%Z ->
  query Neumann ((Imin + 1) / 2)%Z ((Imax + 1) / 2)%Z = Ret e -> answers (half Neumann) eps ((Imin + 1) / 2) ((Imax + 1) / 2) e ->
  query Dirichlet (Imin / 2)%Z (Imax / 2)%Z = Ret o -> answers (half Dirichlet) eps (Imin / 2) (Imax / 2) o ->
  exists r, half_byIndex Neumann Dirichlet query Imin Imax = Ret r /\ map fst r = range Imin Imax /\
    Forall (fun p => exists k E, Rabs (snd p - E) <= eps /\ (fst p = 2 * k /\ half Neumann k E \/ fst p = 2 * k + 1 /\ half Dirichlet k E)%Z) r.
Proof.
  intros half query eps Imin Imax e o HI Qe [Re Pe] Qo [Ro Po]. unfold half_byIndex.
  assert (D : forall x, (0 <= x -> Z.quot x 2 = x / 2 /\ Z.quot x 2 + Z.rem x 2 = (x + 1) / 2 /\ (x = 2 * (x / 2) \/ x = 2 * (x / 2) + 1) /\ ((x + 1) / 2 = x - x / 2))%Z).
  { intros x Hx. rewrite Z.quot_div_nonneg, Z.rem_mod_nonneg by lia. pose proof (Z.div_mod x 2 ltac:(lia)). pose proof (Z.mod_pos_bound x 2 ltac:(lia)).
    pose proof (Z.div_mod (x + 1) 2 ltac:(lia)). pose proof (Z.mod_pos_bound (x + 1) 2 ltac:(lia)). lia. }
  destruct (D Imin) as (A1 & A2 & A3 & A4); [lia|]. destruct (D Imax) as (B1 & B2 & B3 & B4); [lia|].
  rewrite A2, B2, A1, B1, Qe. cbn [bind]. rewrite Qo. cbn [bind]. eexists. split; [reflexivity|]. split.
  - apply sorted_ext.
    + apply sorted_map. apply C37_sorted_strict; apply sorted_map; [rewrite Re|rewrite Ro]; apply range_sorted.
    + apply range_sorted.
    + intros x. rewrite range_In, in_map_iff.
      assert (Ie : forall k, In k (map fst e) <-> ((Imin + 1) / 2 <= k < (Imax + 1) / 2)%Z) by (intros; rewrite Re; apply range_In).
      assert (Io : forall k, In k (map fst o) <-> (Imin / 2 <= k < Imax / 2)%Z) by (intros; rewrite Ro; apply range_In).
      split.
      * intros ((y & E) & <- & I). cbn [fst]. rewrite (Permutation.Permutation_in' eq_refl (C37_content e o)), in_app_iff, !in_map_iff in I.
        destruct I as [((k & E') & K & I)|((k & E') & K & I)]; cbn [fst snd] in K; apply pair_equal_spec in K; destruct K as [<- ->]; apply (in_map fst) in I; cbn [fst] in I.
        { apply Ie in I. lia. }
        { apply Io in I. lia. }
      * intros Hx. destruct (Z.Even_or_Odd x) as [[k ->]|[k ->]].
        { assert (I : In k (map fst e)) by (apply Ie; lia). apply in_map_iff in I. destruct I as ((k' & E) & <- & I). exists (2 * k', E)%Z. split; auto. apply C37_even_index; auto. }
        { assert (I : In k (map fst o)) by (apply Io; lia). apply in_map_iff in I. destruct I as ((k' & E) & <- & I). exists (2 * k' + 1, E)%Z. split; auto. apply C37_odd_index; auto. }
  - rewrite Forall_forall in Pe, Po. apply merge_forall; apply Forall_forall; intros (k & E) I.
    + destruct (Pe _ I) as (E0 & A & B). exists k, E0. split; [exact B|]. left. split; [reflexivity|exact A].
    + destruct (Po _ I) as (E0 & A & B). exists k, E0. split; [exact B|]. right. split; [reflexivity|exact A].
Qed.

(** A symmetric problem given by its right half [0, L] (AbstractMatslise built for a half range): the query by index of the two half
    problems, merged, is the answer for the problem on the whole interval [-L, L]. *)
Theorem C83_symmetric : forall V L l vm m sm side Imin Imax Q, constant_problem V 0 L l -> even_potential V l -> vget l m = Ret sm -> smax sm < L -> nonzero side -> e0 side = 0 -> e1 side = 0 ->
  (0 <= Imin <= Imax)%Z -> (Imax <= 2147483647)%Z -> 1 <= Q ->
  let F left := angle_difference (calculateT eta_exact) vm l m 0 L left side in
  let me left := me_of (calculateT eta_exact) vm l m 0 L left side in
  IZR ((Imax + 1) / 2) <= F Neumann Q -> F Neumann (2 * Q) <= 2147483647 -> IZR (Imax / 2) <= F Dirichlet Q -> F Dirichlet (2 * Q) <= 2147483647 ->
  exists rho0 n En1 En2 Ed1 Ed2, 0 < rho0 /\ En1 < En2 /\ Ed1 < Ed2 /\
    (forall fuel, (n < fuel)%nat -> bracket (me Neumann) fuel ((Imin + 1) / 2) ((Imax + 1) / 2) = Ret (En1, En2) /\ bracket (me Dirichlet) fuel (Imin / 2) (Imax / 2) = Ret (Ed1, Ed2)) /\
    forall rho tol fuel, rho <= rho0 -> (n < fuel)%nat -> (2 ^ 32 <= Z.of_nat fuel)%Z ->
    good_run V 0 L l Neumann side (me Neumann) fuel ((Imin + 1) / 2) ((Imax + 1) / 2) rho En1 En2 -> good_run V 0 L l Dirichlet side (me Dirichlet) fuel (Imin / 2) (Imax / 2) rho Ed1 Ed2 ->
    exists r, half_byIndex Neumann Dirichlet (fun left => eigenvaluesByIndex (me left) tol fuel) Imin Imax = Ret r /\
      answers (symmetric_index V L l side) (Rmax tol (rho / 2 ^ 20)) Imin Imax r.
Proof.
  intros V L l vm m sm side Imin Imax Q PC Ev Hm Hsm Ns S0 S1 HI HI2 HQ1 F me HN1 HN2 HD1 HD2. pose proof PC as [PT _]. pose proof (constant_order V 0 L l PC) as Ho.
  assert (bounded_on V l) as Bd.
  { destruct (resolved_bounded V l) as (M & HM & B); [|exists M; exact B]. intros s Hs.
    destruct (constant_exact_at V 0 L l m sm Neumann side 0 PC Hm) as (C & _). apply (C s Hs). }
  assert (nonzero Neumann) as NN by (left; cbn; lra). assert (nonzero Dirichlet) as ND by (right; cbn; lra).
  assert (fixed_ends Neumann side) as FN by (unfold fixed_ends; cbn; auto). assert (fixed_ends Dirichlet side) as FD by (unfold fixed_ends; cbn; auto).
  assert (0 <= (Imin + 1) / 2 <= (Imax + 1) / 2)%Z as J1 by (split; [apply Z.div_pos; lia|apply Z.div_le_mono; lia]).
  assert (0 <= Imin / 2 <= Imax / 2)%Z as J2 by (split; [apply Z.div_pos; lia|apply Z.div_le_mono; lia]).
  assert ((Imax + 1) / 2 <= 2147483647 /\ Imax / 2 <= 2147483647)%Z as [J3 J4] by (split; apply Z.div_le_upper_bound; lia).
  destruct (C83_by_index V 0 L l vm m sm Neumann side _ _ Q PC Hm Hsm NN Ns FN J1 J3 HQ1 HN1 HN2) as (r1 & n1 & En1 & En2 & P1 & O1 & W1 & Q1). cbv zeta in Q1.
  destruct (C83_by_index V 0 L l vm m sm Dirichlet side _ _ Q PC Hm Hsm ND Ns FD J2 J4 HQ1 HD1 HD2) as (r2 & n2 & Ed1 & Ed2 & P2 & O2 & W2 & Q2). cbv zeta in Q2.
  exists (Rmin r1 r2), (Nat.max n1 n2), En1, En2, Ed1, Ed2. pose proof (Rmin_l r1 r2). pose proof (Rmin_r r1 r2). split; [apply Rmin_pos; assumption|]. split; [exact O1|]. split; [exact O2|]. split; [intros fuel Hn; split; [apply W1; lia|apply W2; lia]|].
  intros rho tol fuel Hrho Hn Hf G1 G2.
  destruct (Q1 rho tol fuel ltac:(lra) ltac:(lia) Hf G1) as (e & Ee & Ae). destruct (Q2 rho tol fuel ltac:(lra) ltac:(lia) Hf G2) as (o & Eo & Ao).
  destruct (half_queries (fun left => eigen_index V 0 L l left side) (fun left => eigenvaluesByIndex (me left) tol fuel) (Rmax tol (rho / 2 ^ 20)) Imin Imax e o HI Ee Ae Eo Ao) as (r & Er & R1 & R2).
  exists r. split; [exact Er|]. split; [exact R1|]. revert R2. apply Forall_impl. intros p (k & E & D & [(-> & X)|(-> & X)]); exists E; (split; [|exact D]).
  - apply (C74_even V L l side PT Ho Bd Ev Ns), X.
  - apply (C74_odd V L l side PT Ho Bd Ev Ns), X.
Qed.

(** ---- A problem for which everything is met, with rho = 0: V = 104 - (pi/2)^2 on [0, 1], Neumann on the left, Dirichlet on the right, two sectors;
    the first eigenvalue is 104, which is the middle of the bracket isolated by the search on [64, 128] *)
Definition c0 : R := 104 - PI / 2 * (PI / 2).
Definition shifted : list sec := [mkSector 0 (1 / 2) Dfwd [c0]; mkSector (1 / 2) 1 Dbwd [c0]].
Lemma shifted_ok : constant_problem (fun _ => c0) 0 1 shifted.
Proof.
  assert (/ 10 ^ 12 < 1 / 2). { replace (1 / 2) with (/ 2) by field. apply Rinv_lt_contravar; [apply Rmult_lt_0_compat; [lra|apply pow_lt; lra]|]. apply Rlt_le_trans with (10 ^ 1); [lra|]. apply Rle_pow; [lra|lia]. }
  split.
  - split; [discriminate|]. cbn. repeat split; reflexivity.
  - intros s [<-|[<-|[]]]; (split; [unfold directed; cbn; auto|]); (split; [unfold sh; cbn [smin smax]; lra|]); (split; [|reflexivity]); intros k Hk; destruct k as [|[|k]]; try lia; reflexivity.
Qed.
Lemma shift_index : forall left right k E, eigen_index (fun _ => 0) 0 1 two_sectors left right k E -> eigen_index (fun _ => c0) 0 1 shifted left right k (c0 + E).
Proof.
  intros left right k E (z & z' & zs & [S1 S2] & Q). exists z, z', zs. split; [|exact Q]. split; [exact S1|].
  assert (forall a b d, In (mkSector a b d [0]) two_sectors -> forall x, a < x < b -> is_derive z x (z' x) /\ is_derive z' x ((c0 - (c0 + E)) * z x)) as A.
  { intros a b d I x Hx. destruct (S2 _ x I Hx) as [D1 D2]. split; [exact D1|]. replace (c0 - (c0 + E)) with (0 - E) by ring. exact D2. }
  intros s x [<-|[<-|[]]] Hx; cbn [smin smax] in Hx; [apply (A 0 (1 / 2) Dfwd)|apply (A (1 / 2) 1 Dbwd)]; unfold two_sectors; cbn [In]; auto.
Qed.
Lemma neumann_index : forall k, eigen_index (fun _ => 0) 0 1 two_sectors Neumann Dirichlet (Z.of_nat k) ((INR k + / 2) * PI * ((INR k + / 2) * PI)).
Proof.
  intros k. pose proof PIpos as HP. pose proof (pos_INR k) as Hk. set (w := (INR k + / 2) * PI). assert (0 < w) as Hw by (unfold w; apply Rmult_lt_0_compat; lra).
  set (z := fun x => cos (w * x)). set (z' := fun x => - w * sin (w * x)).
  assert (forall x, is_derive z x (z' x)) as D1 by (intro x; unfold z, z'; auto_derive; [exact I|ring]).
  assert (forall x, is_derive z' x ((0 - w * w) * z x)) as D2 by (intro x; unfold z, z'; auto_derive; [exact I|ring]).
  assert (cos w = 0) as Cw. { apply cos_eq_0_1. exists (Z.of_nat k). rewrite <- INR_IZR_INZ. unfold w. field. }
  exists z, z', (map (fun i => (INR i + / 2) / (INR k + / 2)) (seq 0 k)).
  split; [split; [intros x _; split; [apply (ex_derive_continuous z); eexists; apply D1|apply (ex_derive_continuous z'); eexists; apply D2]|intros s x _ _; split; [apply D1|apply D2]]|].
  split.
  { intros x _. unfold z, z'. destruct (Req_dec (cos (w * x)) 0) as [C|C]; [right|left; exact C]. intro Q. pose proof (sin2_cos2 (w * x)) as P. unfold Rsqr in P.
    assert (sin (w * x) = 0) as S0 by (apply (Rmult_eq_reg_l (- w)); [rewrite Rmult_0_r; exact Q|lra]). rewrite C, S0 in P. lra. }
  unfold Neumann, Dirichlet. cbn [y0 y1].
  assert (z' 0 = 0) as Z0 by (unfold z'; replace (w * 0) with 0 by ring; rewrite sin_0; ring). assert (z 1 = 0) as Z1 by (unfold z; replace (w * 1) with w by ring; exact Cw).
  split; [rewrite Z0; simpl; ring|].
  split; [rewrite Z1; simpl; ring|]. split; [|rewrite map_length, seq_length; lia]. split.
  - apply FinFun.Injective_map_NoDup; [|apply seq_NoDup]. intros i j Hij. apply INR_eq. apply (Rmult_eq_compat_r (INR k + / 2)) in Hij. unfold Rdiv in Hij. rewrite !Rmult_assoc, Rinv_l in Hij by lra. lra.
  - intro x. rewrite in_map_iff. split.
    + intros (i & <- & Hi). apply in_seq in Hi. pose proof (pos_INR i). assert (INR i < INR k) by (apply lt_INR; lia). split.
      * split; [apply Rdiv_lt_0_compat; lra|]. apply (Rmult_lt_reg_r (INR k + / 2)); [lra|]. unfold Rdiv. rewrite Rmult_assoc, Rinv_l; lra.
      * unfold z. apply cos_eq_0_1. exists (Z.of_nat i). rewrite <- INR_IZR_INZ. unfold w. field. lra.
    + intros [Hx Z]. unfold z in Z. apply cos_eq_0_0 in Z as [n En].
      assert ((INR k + / 2) * x = IZR n + / 2) as E3. { apply (Rmult_eq_reg_r PI); [|lra]. unfold w in En. lra. }
      assert (0 < (INR k + / 2) * x) as K1 by (apply Rmult_lt_0_compat; lra). assert ((INR k + / 2) * x < INR k + / 2) as K2 by (rewrite <- (Rmult_1_r (INR k + / 2)) at 2; apply Rmult_lt_compat_l; lra).
      assert (-1 < n)%Z as K3 by (apply lt_IZR; lra). assert (n < Z.of_nat k)%Z as K4 by (apply lt_IZR; rewrite <- INR_IZR_INZ; lra).
      exists (Z.to_nat n). split; [|apply in_seq; lia]. rewrite INR_IZR_INZ, Z2Nat.id by lia. rewrite <- E3. field. lra.
Qed.
Lemma PI_lt : PI < 17 / 5.
Proof. destruct (PI_ineq 2) as [_ H]. unfold PI_tg, tg_alt in H. simpl in H. lra. Qed.
(** values of the angle difference between eigenvalues of consecutive indices *)
Lemma between : forall V lo hi l vm m sm left right, constant_problem V lo hi l -> vget l m = Ret sm -> smax sm < hi -> nonzero left -> nonzero right ->
  let F := angle_difference (calculateT eta_exact) vm l m lo hi left right in
  (forall k a b, eigen_index V lo hi l left right k a -> eigen_index V lo hi l left right (k + 1) b -> F a = IZR k /\ F b = IZR (k + 1) /\ forall E, a < E < b -> IZR k < F E < IZR k + 1) /\
  (forall a, eigen_index V lo hi l left right 0 a -> forall E, E < a -> -1 < F E < 0).
Proof.
  intros V lo hi l vm m sm left right PC Hm Hsm NL NR F. destruct (C65_piecewise_constant V lo hi l vm m sm left right PC Hm Hsm NL NR) as (RC & I & _). cbv zeta in RC, I. fold F in RC, I. split.
  - intros k a b A B. apply I in A. apply I in B. unfold eigenvalue_of in A, B. split; [exact A|]. split; [exact B|]. rewrite plus_IZR in B. intros E HE. split.
    + apply (proj1 (RC a E) k a E); lra.
    + destruct (Rlt_le_dec (F E) (IZR k + 1)) as [|L]; [assumption|]. pose proof (proj1 (RC E b) (k + 1)%Z E b ltac:(lra) ltac:(lra) ltac:(lra) ltac:(rewrite plus_IZR; lra)) as Q. rewrite plus_IZR in Q. lra.
  - intros a A E HE. apply I in A. unfold eigenvalue_of in A. split.
    + unfold F. apply (difference_lower _ _ l m sm lo hi V); auto; [apply PC|]. apply (constant_exact_at _ _ _ _ m sm); auto.
    + destruct (Rlt_le_dec (F E) 0) as [|L]; [assumption|]. pose proof (proj1 (RC E a) 0%Z E a ltac:(lra) HE ltac:(lra) L). lra.
Qed.
Lemma find_it : forall (me : R -> bool -> R * R * R) Imax i, (forall E, E <= 64 -> -1 < M_Search.ang me E < 0) -> IZR i <= M_Search.ang me 128 < IZR i + 1 -> (0 <= Imax <= i)%Z -> (i <= 10)%Z ->
  forall f, bracket me (8 + f) 0 Imax = Ret (64, 128).
Proof.
  intros me Imax i L H HI Hi f. unfold bracket.
  assert (forall g Em E, E <= 64 -> find_emax me (S g) 0 Imax Em E = find_emax me g 0 Imax E (E * 2)) as ST.
  { intros g Em E HE. specialize (L E HE). cbn [find_emax]. rewrite fl_fits by lra. rewrite (floor_unique _ (-1)) by lra. cbn [bind]. destruct (Z.leb_spec Imax (-1)); [lia|]. reflexivity. }
  change (sofZ (-1)) with (-1). change (sofZ 1) with 1. change (8 + f)%nat with (S (S (S (S (S (S (S (S f)))))))).
  rewrite ST by lra. rewrite ST by lra. rewrite ST by lra. rewrite ST by lra. rewrite ST by lra. rewrite ST by lra. rewrite ST by lra.
  replace (1 * 2 * 2 * 2 * 2 * 2 * 2 * 2) with 128 by ring. replace (1 * 2 * 2 * 2 * 2 * 2 * 2) with 64 by ring.
  cbn [find_emax]. assert (0 <= IZR i <= 10) as B by (split; apply IZR_le; lia). rewrite fl_fits by lra. rewrite (floor_unique _ i) by lra. cbn [bind]. destruct (Z.leb_spec Imax i); [|lia]. cbn [bind fst snd].
  assert (seqb 64 (-1) = false) as ->; [|reflexivity]. simpl. apply not_true_is_false. intro Q. apply Reqb_true in Q. lra.
Qed.
Notation FN := (angle_difference (calculateT eta_exact) 0 shifted 0 0 1 Neumann Dirichlet).
Notation FD := (angle_difference (calculateT eta_exact) 0 shifted 0 0 1 Dirichlet Dirichlet).
Notation meN := (me_of (calculateT eta_exact) 0 shifted 0 0 1 Neumann Dirichlet).
Notation meD := (me_of (calculateT eta_exact) 0 shifted 0 0 1 Dirichlet Dirichlet).
Lemma nzN : nonzero Neumann. Proof. left. cbn. lra. Qed.
Lemma nzD : nonzero Dirichlet. Proof. right. cbn. lra. Qed.
Lemma nd_index : eigen_index (fun _ => c0) 0 1 shifted Neumann Dirichlet 0 104 /\
  exists E1 E2, 112 < E1 < 128 /\ 128 < E2 /\ 256 < E2 + 128 /\ eigen_index (fun _ => c0) 0 1 shifted Neumann Dirichlet 1 E1 /\ eigen_index (fun _ => c0) 0 1 shifted Neumann Dirichlet 2 E2.
Proof.
  pose proof PIpos as HP. pose proof PI_lt as P1. pose proof PI2_3_2 as P2. unfold PI2 in P2.
  split; [replace 104 with (c0 + (INR 0 + / 2) * PI * ((INR 0 + / 2) * PI)) by (unfold c0; simpl INR; field); apply shift_index, (neumann_index 0)|].
  exists (c0 + (INR 1 + / 2) * PI * ((INR 1 + / 2) * PI)), (c0 + (INR 2 + / 2) * PI * ((INR 2 + / 2) * PI)).
  assert (9 < PI * PI < 12) by (split; nra).
  split; [|split; [|split; [|split]]]; [| | |apply shift_index, (neumann_index 1)|apply shift_index, (neumann_index 2)]; unfold c0; simpl INR; lra.
Qed.
Lemma dd_index : exists E0 E1, 104 < E0 < 128 /\ 128 < E1 /\ eigen_index (fun _ => c0) 0 1 shifted Dirichlet Dirichlet 0 E0 /\ eigen_index (fun _ => c0) 0 1 shifted Dirichlet Dirichlet 1 E1.
Proof.
  pose proof PIpos as HP. pose proof PI_lt as P1. pose proof PI2_3_2 as P2. unfold PI2 in P2.
  exists (c0 + (INR 1 * PI) * (INR 1 * PI)), (c0 + (INR 2 * PI) * (INR 2 * PI)). assert (9 < PI * PI < 12) by (split; nra).
  split; [|split; [|split]]; [| |apply shift_index, (dirichlet_index 1); lia|apply shift_index, (dirichlet_index 2); lia]; unfold c0; simpl INR; lra.
Qed.
(** the query for index 0 *)
Lemma nd_good : forall f, good_run (fun _ => c0) 0 1 shifted Neumann Dirichlet meN (5 + f) 0 1 0 64 128.
Proof.
  intro f. destruct nd_index as (I0 & E1 & E2 & B1 & B2 & _ & I1 & I2).
  destruct (between (fun _ => c0) 0 1 shifted 0 0 (mkSector 0 (1 / 2) Dfwd [c0]) Neumann Dirichlet shifted_ok eq_refl ltac:(cbn [smax]; lra) nzN nzD) as [B L]. cbv zeta in B, L.
  destruct (C65_piecewise_constant (fun _ => c0) 0 1 shifted 0 0 (mkSector 0 (1 / 2) Dfwd [c0]) Neumann Dirichlet shifted_ok eq_refl ltac:(cbn [smax]; lra) nzN nzD) as (_ & I & _). cbv zeta in I.
  specialize (L 104 I0). destruct (B 0%Z _ _ I0 I1) as (V0 & V1 & W0). destruct (B 1%Z _ _ I1 I2) as (_ & V2 & W1). change (0 + 1)%Z with 1%Z in V1. change (1 + 1)%Z with 2%Z in V2.
  assert (forall k E, 64 <= E <= 128 -> eigen_index (fun _ => c0) 0 1 shifted Neumann Dirichlet k E -> E = 104 \/ E = E1) as U.
  { intros k E HE Hk. apply I in Hk. unfold eigenvalue_of in Hk.
    destruct (Rtotal_order E 104) as [C|[C|C]]; [|left; exact C|].
    - specialize (L E C). rewrite Hk in L. destruct L as [K1 K2]. apply lt_IZR in K1. apply lt_IZR in K2. lia.
    - destruct (Rtotal_order E E1) as [D|[D|D]]; [|right; exact D|].
      + specialize (W0 E ltac:(lra)). rewrite Hk in W0. destruct W0 as [K1 K2]. rewrite <- plus_IZR in K2. apply lt_IZR in K1. apply lt_IZR in K2. lia.
      + specialize (W1 E ltac:(lra)). rewrite Hk in W1. destruct W1 as [K1 K2]. rewrite <- plus_IZR in K2. apply lt_IZR in K1. apply lt_IZR in K2. lia. }
  assert (forall E, 64 <= E <= 128 -> E <> 104 -> E <> E1 -> not_eigenvalue (fun _ => c0) 0 1 shifted Neumann Dirichlet E) as NE.
  { intros E HE D1 D2 k Hk. destruct (U k E HE Hk); contradiction. }
  pose proof (L 64 ltac:(lra)) as F64. pose proof (L 96 ltac:(lra)) as F96. pose proof (W0 112 ltac:(lra)) as F112. pose proof (W1 128 ltac:(lra)) as F128.
  split; [apply NE; lra|]. split; [apply NE; lra|]. split.
  { intros j k a b H1 H2 H3 J K. destruct (U j a ltac:(lra) J) as [->| ->], (U k b ltac:(lra) K) as [->| ->]; try lra. }
  assert (step meN 0 1 (mkItem 64 (FN 64) 128 (FN 128) 0) = Ret (Push 96 [mkItem 64 (FN 64) 96 (FN 96) 1; mkItem 96 (FN 96) 128 (FN 128) 1])) as S1.
  { unfold step. rewrite (ex_ceil (FN 64) 0) by (lia || lra). rewrite (ex_ceil (FN 128) 2) by (lia || lra). cbn [bind].
    assert (smul (sofQ (QArith_base.Qmake 1 2)) (sadd 64 128) = 96) as MID by (simpl; field).
    assert (sle (FN 128) (FN 64) = false) as -> by (simpl; apply Rleb_false; lra).
    change (false || (0 =? 2)%Z || (2 <=? 0)%Z || (1 <=? 0)%Z)%bool with false. cbv iota. change (0 + 1 <? 2)%Z with true. cbn [orb]. rewrite MID.
    change (3 <? 0)%Z with false. change (30 <? 0)%Z with false. rewrite andb_false_r. cbn [orb]. reflexivity. }
  assert (step meN 0 1 (mkItem 64 (FN 64) 96 (FN 96) 1) = Ret Skip) as S2.
  { unfold step. rewrite (ex_ceil (FN 64) 0) by (lia || lra). rewrite (ex_ceil (FN 96) 0) by (lia || lra). cbn [bind]. change (0 =? 0)%Z with true. rewrite orb_true_r. reflexivity. }
  assert (step meN 0 1 (mkItem 96 (FN 96) 128 (FN 128) 1) = Ret (Push 112 [mkItem 96 (FN 96) 112 (FN 112) 2; mkItem 112 (FN 112) 128 (FN 128) 2])) as S3.
  { unfold step. rewrite (ex_ceil (FN 96) 0) by (lia || lra). rewrite (ex_ceil (FN 128) 2) by (lia || lra). cbn [bind].
    assert (smul (sofQ (QArith_base.Qmake 1 2)) (sadd 96 128) = 112) as MID by (simpl; field).
    assert (sle (FN 128) (FN 96) = false) as -> by (simpl; apply Rleb_false; lra).
    change (false || (0 =? 2)%Z || (2 <=? 0)%Z || (1 <=? 0)%Z)%bool with false. cbv iota. change (0 + 1 <? 2)%Z with true. cbn [orb]. rewrite MID.
    change (3 <? 1)%Z with false. change (30 <? 1)%Z with false. rewrite andb_false_r. cbn [orb]. reflexivity. }
  assert (step meN 0 1 (mkItem 96 (FN 96) 112 (FN 112) 2) = Ret (LeafAt 104)) as S4.
  { unfold step. rewrite (ex_ceil (FN 96) 0) by (lia || lra). rewrite (ex_ceil (FN 112) 1) by (lia || lra). cbn [bind].
    assert (smul (sofQ (QArith_base.Qmake 1 2)) (sadd 96 112) = 104) as MID by (simpl; field).
    assert (sle (FN 112) (FN 96) = false) as -> by (simpl; apply Rleb_false; lra).
    change (false || (0 =? 1)%Z || (1 <=? 0)%Z || (1 <=? 0)%Z)%bool with false. cbv iota. change (Z.rem 2 2 =? 0)%Z with true. rewrite orb_true_r. cbv iota. rewrite MID.
    change (3 <? 2)%Z with false. change (30 <? 2)%Z with false. rewrite andb_false_r. cbn [orb]. change (M_Search.ang meN 104) with (FN 104). rewrite V0.
    change (snan (0 : R)) with false. change (0 + 1 <? 1)%Z with false. cbv iota.
    assert (slt (sabs (ssub 0 (sofZ 0))) (sofQ (QArith_base.Qmake 1 100000000)) = true) as ->; [|reflexivity].
    simpl. apply Rltb_true. rewrite Rminus_0_r, Rabs_R0. lra. }
  assert (step meN 0 1 (mkItem 112 (FN 112) 128 (FN 128) 2) = Ret Skip) as S5.
  { unfold step. rewrite (ex_ceil (FN 112) 1) by (lia || lra). rewrite (ex_ceil (FN 128) 2) by (lia || lra). cbn [bind]. change (1 <=? 1)%Z with true. rewrite !orb_true_r. reflexivity. }
  exists [mkLeaf (mkItem 96 (FN 96) 112 (FN 112) 2) 104], [96; 112]. split.
  - unfold initial. change (M_Search.ang meN) with FN. change (5 + f)%nat with (S (S (S (S (S f))))).
    cbn [bisect]. rewrite S1. cbn [bind bisect app]. rewrite S2. cbn [bind bisect app]. rewrite S3. cbn [bind bisect app]. rewrite S4. cbn [bind bisect app]. rewrite S5. cbn [bind bisect app].
    destruct f; reflexivity.
  - split.
    + repeat constructor; apply NE; lra.
    + intros lf k E [<-|[]] HE Hk. unfold inside in HE. cbn [lit ia_ ib_] in HE. cbn [lc]. destruct (U k E ltac:(lra) Hk) as [->| ->]; [|lra]. rewrite Rminus_eq_0, Rabs_R0. lra.
Qed.
Lemma dd_good : forall f, good_run (fun _ => c0) 0 1 shifted Dirichlet Dirichlet meD (1 + f) 0 0 0 64 128.
Proof.
  intro f. destruct dd_index as (E0 & E1 & B0 & B1 & I0 & I1).
  destruct (between (fun _ => c0) 0 1 shifted 0 0 (mkSector 0 (1 / 2) Dfwd [c0]) Dirichlet Dirichlet shifted_ok eq_refl ltac:(cbn [smax]; lra) nzD nzD) as [B L]. cbv zeta in B, L.
  destruct (C65_piecewise_constant (fun _ => c0) 0 1 shifted 0 0 (mkSector 0 (1 / 2) Dfwd [c0]) Dirichlet Dirichlet shifted_ok eq_refl ltac:(cbn [smax]; lra) nzD nzD) as (_ & I & _). cbv zeta in I.
  specialize (L E0 I0). destruct (B 0%Z _ _ I0 I1) as (V0 & V1 & W0).
  assert (forall k E, 64 <= E <= 128 -> eigen_index (fun _ => c0) 0 1 shifted Dirichlet Dirichlet k E -> E = E0) as U.
  { intros k E HE Hk. apply I in Hk. unfold eigenvalue_of in Hk.
    destruct (Rtotal_order E E0) as [C|[C|C]]; [|exact C|]; exfalso.
    - specialize (L E C). rewrite Hk in L. destruct L as [K1 K2]. apply lt_IZR in K1. apply lt_IZR in K2. lia.
    - specialize (W0 E ltac:(lra)). rewrite Hk in W0. destruct W0 as [K1 K2]. rewrite <- plus_IZR in K2. apply lt_IZR in K1. apply lt_IZR in K2. lia. }
  pose proof (L 64 ltac:(lra)) as F64. pose proof (W0 128 ltac:(lra)) as F128.
  split; [intros k Hk; pose proof (U k 64 ltac:(lra) Hk); lra|]. split; [intros k Hk; pose proof (U k 128 ltac:(lra) Hk); lra|]. split.
  { intros j k a b H1 H2 H3 J K. pose proof (U j a ltac:(lra) J). pose proof (U k b ltac:(lra) K). lra. }
  exists [], []. split; [|split; [constructor|intros lf k E []]].
  unfold initial. change (M_Search.ang meD) with FD. change (1 + f)%nat with (S f). cbn [bisect].
  assert (step meD 0 0 (mkItem 64 (FD 64) 128 (FD 128) 0) = Ret Skip) as ->; [|destruct f; reflexivity].
  unfold step. rewrite (ex_ceil (FD 64) 0) by (lia || lra). rewrite (ex_ceil (FD 128) 1) by (lia || lra). cbn [bind]. change (0 <=? 0)%Z with true. rewrite !orb_true_r. reflexivity.
Qed.
(** the angle difference at 256 is below 2^31 *)
Lemma below_256 : FN 256 <= 2147483647 /\ FD 256 <= 2147483647.
Proof.
  pose proof PIpos as HP. pose proof PI2_3_2 as P2. unfold PI2 in P2. assert (9 < PI * PI) by nra.
  pose proof (shift_index _ _ _ _ (neumann_index 4)) as IN. pose proof (shift_index _ _ _ _ (dirichlet_index 5 ltac:(lia))) as ID.
  assert (forall left, nonzero left -> forall k E, eigen_index (fun _ => c0) 0 1 shifted left Dirichlet k E -> (0 <= k <= 10)%Z -> 256 < E -> angle_difference (calculateT eta_exact) 0 shifted 0 0 1 left Dirichlet 256 <= 2147483647) as A.
  { intros left NL k E I Hk HE.
    destruct (C65_piecewise_constant (fun _ => c0) 0 1 shifted 0 0 (mkSector 0 (1 / 2) Dfwd [c0]) left Dirichlet shifted_ok eq_refl ltac:(cbn [smax]; lra) NL nzD) as (RC & J & _). cbv zeta in RC, J.
    apply J in I. unfold eigenvalue_of in I. destruct (Rle_lt_dec (angle_difference (calculateT eta_exact) 0 shifted 0 0 1 left Dirichlet 256) 2147483647) as [|C]; [assumption|exfalso].
    assert (IZR k <= 10) by (apply IZR_le; lia). pose proof (proj1 (RC 256 E) k 256 E ltac:(lra) HE ltac:(lra) ltac:(lra)). lra. }
  split; [apply (A Neumann nzN _ _ IN)|apply (A Dirichlet nzD _ _ ID)]; try lia; unfold c0; simpl INR; lra.
Qed.
Lemma one_answer : forall (eigen : Z -> R -> Prop) eps E0 r, answers eigen eps 0 1 r -> (forall E, eigen 0%Z E -> E = E0) -> exists E', r = [(0%Z, E')] /\ Rabs (E' - E0) <= eps.
Proof.
  intros eigen eps E0 r [R1 R2] U. destruct r as [|[k E'] [|? ?]]; try discriminate R1. cbn in R1. injection R1 as ->.
  inversion_clear R2 as [|? ? (E & HE & D) _]. cbn [fst snd] in HE, D. rewrite (U E HE) in D. exists E'. split; [reflexivity|exact D].
Qed.
(** the query by index returns (0, 104) up to the tolerance *)
Example C83_case : exists n, forall tol fuel, (n < fuel)%nat -> exists E', eigenvaluesByIndex meN tol fuel 0 1 = Ret [(0%Z, E')] /\ Rabs (E' - 104) <= Rmax tol (0 / 2 ^ 20).
Proof.
  destruct nd_index as (I0 & E1 & E2 & B1 & B2 & B3 & I1 & I2).
  destruct (between (fun _ => c0) 0 1 shifted 0 0 (mkSector 0 (1 / 2) Dfwd [c0]) Neumann Dirichlet shifted_ok eq_refl ltac:(cbn [smax]; lra) nzN nzD) as [B L]. cbv zeta in B, L.
  specialize (L 104 I0). destruct (B 1%Z _ _ I1 I2) as (_ & V2 & W1). pose proof (W1 128 ltac:(lra)) as F128.
  destruct (C83_by_index (fun _ => c0) 0 1 shifted 0 0 (mkSector 0 (1 / 2) Dfwd [c0]) Neumann Dirichlet 0 1 128 shifted_ok eq_refl ltac:(cbn [smax]; lra) nzN nzD ltac:(repeat split) ltac:(lia) ltac:(lia) ltac:(lra) ltac:(lra) ltac:(replace (2 * 128) with 256 by ring; apply below_256))
    as (rho0 & n & Emin & Emax & Hr & _ & Br & Q). cbv zeta in Q, Br.
  assert (Emin = 64 /\ Emax = 128) as [-> ->].
  { specialize (Br (8 + n)%nat ltac:(lia)). rewrite (find_it _ 1 1) in Br; [injection Br as <- <-; auto|intros E HE; apply L; lra|split; [left; exact (proj1 F128)|exact (proj2 F128)]|lia|lia]. }
  exists (Nat.max (n + 5) (Z.to_nat (2 ^ 32))). intros tol fuel Hf.
  destruct (Q 0 tol fuel ltac:(lra) ltac:(lia) ltac:(lia)) as (r & Er & Ar).
  { replace fuel with (5 + (fuel - 5))%nat by lia. apply nd_good. }
  rewrite Er. destruct (one_answer _ _ 104 r Ar) as (E' & -> & D); [|exists E'; split; [reflexivity|exact D]].
  intros E HE. destruct (proj1 (C72_piecewise_constant (fun _ => c0) 0 1 shifted 0 0 (mkSector 0 (1 / 2) Dfwd [c0]) Neumann Dirichlet shifted_ok eq_refl ltac:(cbn [smax]; lra) nzN nzD) 0%Z ltac:(lia)) as (Ee & _ & U).
  rewrite (U E HE). symmetry. apply U, I0.
Qed.
(** -y'' + (104 - (pi/2)^2) y = E y on [-1, 1] with Dirichlet conditions, given by its right half: the query for the lowest eigenvalue returns (0, 104) *)
Example C83_symmetric_case : exists n, forall tol fuel, (n < fuel)%nat ->
  exists E', half_byIndex Neumann Dirichlet (fun left => eigenvaluesByIndex (me_of (calculateT eta_exact) 0 shifted 0 0 1 left Dirichlet) tol fuel) 0 1 = Ret [(0%Z, E')] /\ Rabs (E' - 104) <= Rmax tol (0 / 2 ^ 20).
Proof.
  destruct nd_index as (I0 & E1 & E2 & B1 & B2 & B3 & I1 & I2).
  destruct (between (fun _ => c0) 0 1 shifted 0 0 (mkSector 0 (1 / 2) Dfwd [c0]) Neumann Dirichlet shifted_ok eq_refl ltac:(cbn [smax]; lra) nzN nzD) as [B L]. cbv zeta in B, L.
  specialize (L 104 I0). destruct (B 1%Z _ _ I1 I2) as (_ & V2 & W1). pose proof (W1 128 ltac:(lra)) as F128.
  destruct dd_index as (D0 & D1 & C0 & C1 & J0 & J1).
  destruct (between (fun _ => c0) 0 1 shifted 0 0 (mkSector 0 (1 / 2) Dfwd [c0]) Dirichlet Dirichlet shifted_ok eq_refl ltac:(cbn [smax]; lra) nzD nzD) as [B' L']. cbv zeta in B', L'.
  specialize (L' D0 J0). destruct (B' 0%Z _ _ J0 J1) as (_ & V2' & W1'). pose proof (W1' 128 ltac:(lra)) as G128.
  assert (even_potential (fun _ => c0) shifted) as Ev by (intros s x _ _; reflexivity).
  destruct (C83_symmetric (fun _ => c0) 1 shifted 0 0 (mkSector 0 (1 / 2) Dfwd [c0]) Dirichlet 0 1 128 shifted_ok Ev eq_refl ltac:(cbn [smax]; lra) nzD eq_refl eq_refl ltac:(lia) ltac:(lia) ltac:(lra))
    as (rho0 & n & En1 & En2 & Ed1 & Ed2 & Hr & _ & _ & Br & Q).
  { change ((1 + 1) / 2)%Z with 1%Z. lra. } { replace (2 * 128) with 256 by ring. apply below_256. } { change (1 / 2)%Z with 0%Z. lra. } { replace (2 * 128) with 256 by ring. apply below_256. }
  change ((1 + 1) / 2)%Z with 1%Z in *. change ((0 + 1) / 2)%Z with 0%Z in *. change (1 / 2)%Z with 0%Z in *. change (0 / 2)%Z with 0%Z in *.
  assert ((En1 = 64 /\ En2 = 128) /\ (Ed1 = 64 /\ Ed2 = 128)) as [[-> ->] [-> ->]].
  { destruct (Br (8 + n)%nat ltac:(lia)) as [Br1 Br2]. rewrite (find_it _ 1 1) in Br1; [|intros E HE; apply L; lra|split; [left; exact (proj1 F128)|exact (proj2 F128)]|lia|lia]. rewrite (find_it _ 0 0) in Br2; [|intros E HE; apply L'; lra|split; [left; exact (proj1 G128)|exact (proj2 G128)]|lia|lia].
    injection Br1 as <- <-. injection Br2 as <- <-. auto. }
  exists (Nat.max (n + 5) (Z.to_nat (2 ^ 32))). intros tol fuel Hf.
  destruct (Q 0 tol fuel ltac:(lra) ltac:(lia) ltac:(lia)) as (r & Er & Ar).
  { replace fuel with (5 + (fuel - 5))%nat by lia. apply nd_good. }
  { replace fuel with (1 + (fuel - 1))%nat by lia. apply dd_good. }
  rewrite Er. destruct (one_answer _ _ 104 r Ar) as (E' & -> & D); [|exists E'; split; [reflexivity|exact D]].
  intros E HE. destruct (C74_exists_unique (fun _ => c0) 1 shifted 0 (mkSector 0 (1 / 2) Dfwd [c0]) Dirichlet 0 shifted_ok Ev eq_refl ltac:(cbn [smax]; lra) nzD ltac:(lia)) as (Ee & _ & U).
  rewrite (U E HE). symmetry. apply U. pose proof (constant_order _ _ _ _ shifted_ok) as Ho.
  assert (bounded_on (fun _ => c0) shifted) as Bd by (exists (Rabs c0); intros; apply Rle_refl).
  apply (C74_even (fun _ => c0) 1 shifted Dirichlet (proj1 shifted_ok) Ho Bd Ev nzD 0%Z). exact I0.
Qed.
Print Assumptions C83_by_index.
Print Assumptions C83_symmetric.
Print Assumptions C83_case.
Print Assumptions C83_symmetric_case.
