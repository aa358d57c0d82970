(** C74: a half-range (symmetric) problem answers for the full symmetric problem. *)
From Coq Require Import String Reals ZArith Lra Lia Bool Sorted.
From Coquelicot Require Import Coquelicot.
From Coq Require Import List.
From Verif Require Import Base M_Search M_Sectors S_Sectors P_Lookup M_Core S_Core M_Half S_Eta M_Formulas S_Accuracy S_Zeros P_Global5 P_Step P_Count2 P_Sturm2 P_Sturm3 T_Zeros S_Search T_Search T_Sturm T_Half T_Bracket S_Mirror P_Mirror T_Hill2.
Import ListNotations.
Open Scope R_scope.

Section Half.
Variables (V : R -> R) (L : R) (l : list sec) (side : Y).
Hypothesis PT : partition 0 L l.
Hypothesis Ho : forall s, In s l -> smin s < smax s.
Hypothesis Bd : bounded_on V l.
Hypothesis Ev : even_potential V l.
Hypothesis Ns : nonzero side.
Notation full := (symmetric_index V L l side).
Notation half := (fun left => eigen_index V 0 L l left side).

(** the eigenvalues of even index are those of the half problem with a Neumann condition in the middle *)
Theorem C74_even : forall k E, full (2 * k) E <-> half Neumann k E.
Proof using PT Ho Bd Ev Ns.
  intros k E. split; intro H.
  - destruct (full_to_half V L l side PT Ho Bd Ev Ns _ E H) as (j & [[Q H']|[Q H']]); [|lia]. assert (k = j) as -> by lia. exact H'.
  - pose proof (half_to_full V L l side PT Ho Ev Ns 1 Neumann k E ltac:(left; split; reflexivity) H) as Q. destruct (Rlt_dec 1 0); [lra|]. rewrite Z.add_0_r in Q. exact Q.
Qed.
(** those of odd index are those of the half problem with a Dirichlet condition in the middle *)
Theorem C74_odd : forall k E, full (2 * k + 1) E <-> half Dirichlet k E.
Proof using PT Ho Bd Ev Ns.
  intros k E. split; intro H.
  - destruct (full_to_half V L l side PT Ho Bd Ev Ns _ E H) as (j & [[Q H']|[Q H']]); [lia|]. assert (k = j) as -> by lia. exact H'.
  - pose proof (half_to_full V L l side PT Ho Ev Ns (-1) Dirichlet k E ltac:(right; split; reflexivity) H) as Q. destruct (Rlt_dec (-1) 0); [exact Q|lra].
Qed.

(** eigenvaluesByIndex: if the half problem answers every query (left condition, Imin, Imax) with the eigenvalues of these indices, up to
    eps, then the symmetric problem does *)
Theorem C74_by_index : forall (query : Y -> Z -> Z -> res (list (Z * R))) eps Imin Imax, (0 <= Imin <= Imax)%Z ->
  (forall left a b, (0 <= a <= b)%Z -> exists r, query left a b = Ret r /\ map fst r = range a b /\
     Forall (fun p => exists E, half left (fst p) E /\ Rabs (snd p - E) <= eps) r) ->
  exists r, half_byIndex Neumann Dirichlet query Imin Imax = Ret r /\ map fst r = range Imin Imax /\
     Forall (fun p => exists E, full (fst p) E /\ Rabs (snd p - E) <= eps) r.
Proof using PT Ho Bd Ev Ns.
  intros query eps Imin Imax HI Hq.
  destruct (C38_indices Neumann Dirichlet query (fun left k E' => exists E, half left k E /\ Rabs (E' - E) <= eps) Imin Imax HI Hq) as (r & Hr & R1 & R2).
  exists r. split; [exact Hr|]. split; [exact R1|]. revert R2. apply Forall_impl. intros p (k & [(-> & E & HE & C)|(-> & E & HE & C)]); exists E; (split; [|exact C]).
  - apply C74_even, HE.
  - apply C74_odd, HE.
Qed.
(** eigenvalues: the same for all eigenvalues of an energy window *)
Theorem C74_eigenvalues : forall (query : Y -> R -> R -> res (list (Z * R))) eps Emin Emax,
  (forall left, left = Neumann \/ left = Dirichlet -> exists r, query left Emin Emax = Ret r /\
     (forall k E', In (k, E') r -> exists E, half left k E /\ Emin <= E < Emax /\ Rabs (E' - E) <= eps) /\
     (forall k E, half left k E -> Emin <= E < Emax -> exists E', In (k, E') r /\ Rabs (E' - E) <= eps) /\
     StronglySorted (fun a b => (fst a < fst b)%Z) r) ->
  exists r, half_eigenvalues Neumann Dirichlet query Emin Emax = Ret r /\
     (forall n E', In (n, E') r -> exists E, full n E /\ Emin <= E < Emax /\ Rabs (E' - E) <= eps) /\
     (forall n E, full n E -> Emin <= E < Emax -> exists E', In (n, E') r /\ Rabs (E' - E) <= eps) /\
     StronglySorted (fun a b => (fst a < fst b)%Z) r.
Proof using PT Ho Bd Ev Ns.
  intros query eps Emin Emax Hq. destruct (Hq Neumann (or_introl eq_refl)) as (e & Qe & E1 & E2 & E3). destruct (Hq Dirichlet (or_intror eq_refl)) as (o & Qo & O1 & O2 & O3).
  exists (merge e o). unfold half_eigenvalues. rewrite Qe, Qo. cbn [bind]. split; [reflexivity|]. split; [|split].
  - intros n E' H. destruct (Z.Even_or_Odd n) as [[k ->]|[k ->]].
    + apply C37_even_index in H. destruct (E1 k E' H) as (E & HE & W). exists E. split; [apply C74_even, HE|exact W].
    + apply C37_odd_index in H. destruct (O1 k E' H) as (E & HE & W). exists E. split; [apply C74_odd, HE|exact W].
  - intros n E H W. destruct (Z.Even_or_Odd n) as [[k ->]|[k ->]].
    + apply C74_even in H. destruct (E2 k E H W) as (E' & I & C). exists E'. split; [apply C37_even_index, I|exact C].
    + apply C74_odd in H. destruct (O2 k E H W) as (E' & I & C). exists E'. split; [apply C37_odd_index, I|exact C].
  - apply C37_sorted_strict; assumption.
Qed.

(** eigenfunction: the array evaluation of the half eigenfunction (z, z') of index k is, at all points, one solution on [-L, L] which
    satisfies both conditions *)
Theorem C74_eigenfunction : forall E z z' (even : bool), solution V E 0 L l z z' -> nontrivial z z' 0 L -> (if even then z' 0 = 0 else z 0 = 0) -> z L * y1 side = z' L * y0 side ->
  exists w w', solution V E (- L) L (both_halves l) w w' /\ nontrivial w w' (- L) L /\
    w (- L) * y1 (same_seen_from_left side) = w' (- L) * y0 (same_seen_from_left side) /\ w L * y1 side = w' L * y0 side /\
    (forall xs : list R, nondecreasing xs -> half_array (sqrt (1 / 2)) (fun xs : list R => Ret (map (fun x => (z x, z' x)) xs)) even xs = Ret (map (fun x => (w x, w' x)) xs)).
Proof using PT Ho Ev.
  intros E z z' even S N B0 BL. pose proof (Lpos L l PT Ho) as HL. set (c := if even then 1 else -1).
  assert (c = 1 /\ z' 0 = 0 \/ c = -1 /\ z 0 = 0) as Hc by (unfold c; destruct even; tauto).
  assert (0 < sqrt (1 / 2)) as Hr by (apply sqrt_lt_R0; lra). set (r := sqrt (1 / 2)) in *.
  pose proof (solution_scale V E (- L) L (both_halves l) _ _ r (ext_solution V L l PT Ho Ev E c z z' S Hc)) as SW.
  assert (c <> 0) as C0 by (destruct Hc as [[-> _]|[-> _]]; lra).
  exists (fun x => r * ext c z x), (fun x => r * ext (- c) z' x). split; [exact SW|]. split; [|split; [|split]].
  - intros x Hx. assert (ext c z x <> 0 \/ ext (- c) z' x <> 0) as Q.
    { destruct (Rle_lt_dec 0 x) as [P|P]; [rewrite !ext_pos by lra; apply N; lra|]. rewrite !ext_neg by lra.
      destruct (N (- x) ltac:(lra)) as [A|A]; [left|right]; apply Rmult_integral_contrapositive; split; (lra || assumption). }
    destruct Q as [Q|Q]; [left|right]; apply Rmult_integral_contrapositive; split; (lra || assumption).
  - cbn. rewrite !ext_neg, Ropp_involutive by lra. replace (r * (c * z L) * - y1 side) with (- r * c * (z L * y1 side)) by ring. rewrite BL. ring.
  - rewrite !ext_pos by lra. replace (r * z L * y1 side) with (r * (z L * y1 side)) by ring. rewrite BL. ring.
  - intros xs Sx. pose proof (C39_array (T := R) r (fun x => (z x, z' x)) (fun xs : list R => Ret (map (fun x => (z x, z' x)) xs)) even (fun _ => eq_refl) xs Sx) as C. rewrite C by (intros; exact I). clear C. f_equal. apply map_ext. intro x.
    destruct (Rle_lt_dec 0 x) as [P|P]; [unfold r; rewrite reflect_pos, !ext_pos by lra; reflexivity|].
    unfold r. rewrite reflect_neg, !ext_neg by lra. unfold sigma, c. cbn [fst snd]. destruct even; f_equal; ring.
Qed.
End Half.

(** the parity chosen when the index is not given: at an eigenvalue of the symmetric problem it is the parity of its index.  The two
    errors are the ones the code computes, with exact steps *)
Theorem C74_parity : forall calcT vm m sm V L l side n E, partition 0 L l -> even_potential V l -> nonzero side -> vget l m = Ret sm -> smax sm < L ->
  (forall left, exact_at calcT V 0 L l (smax sm) left side E) -> symmetric_index V L l side n E ->
  let err left := Rabs (fst (fst (me_of calcT vm l m 0 L left side E true))) in isEven (err Neumann) (err Dirichlet) (-1) = Z.even n.
Proof.
  intros calcT vm m sm V L l side n E PT Ev Ns Hm Hsm X HE err.
  assert (nonzero Neumann) as NN by (left; cbn; lra). assert (nonzero Dirichlet) as ND by (right; cbn; lra).
  pose proof (X Neumann) as (CN & _).
  assert (forall s, In s l -> smin s < smax s) as Ho by (intros s Hs; apply (CN s Hs)).
  destruct (resolved_bounded V l) as (M & HM & B); [intros s Hs; apply (CN s Hs)|].
  assert (bounded_on V l) as Bd by (exists M; exact B). assert (forall s, In s l -> smin s <= smax s) as Hle by (intros s Hs; left; apply Ho, Hs).
  pose proof (Lpos L l PT Ho) as HL.
  (* the error vanishes exactly when the solution from the left satisfies the condition at L *)
  assert (forall left, nonzero left -> exists z z', solution V E 0 L l z z' /\ nontrivial z z' 0 L /\ z 0 = y0 left /\ z' 0 = y1 left /\ (err left = 0 <-> z L * y1 side = z' L * y0 side)) as G.
  { intros left NL. destruct (at_energy calcT vm l m sm 0 L V left side PT Hm Hsm NL Ns E (X left)) as (_ & Hc & zL & zL' & AL & zR & zR' & AR & derr & SL & SR & _ & _ & TL & TR & ME).
    destruct SL as [solL nzL L0 L1 _ _], SR as [solR nzR R0 R1 _ _]. exists zL, zL'. do 4 (split; [assumption|]).
    assert (err left = Rabs (zL' (smax sm) * zR (smax sm) - zR' (smax sm) * zL (smax sm))) as Ee by (unfold err, me_of; rewrite ME; reflexivity).
    rewrite Ee, <- R0, <- R1. split; intro Q.
    - destruct (Req_dec (zL' (smax sm) * zR (smax sm) - zR' (smax sm) * zL (smax sm)) 0) as [Q0|Q0]; [|apply Rabs_no_R0 in Q0; contradiction].
      destruct (parallel (zR (smax sm)) (zR' (smax sm)) (zL (smax sm)) (zL' (smax sm))) as (k & _ & P1 & P2); [apply nzR; lra|apply nzL; lra|lra|].
      destruct (solution_unique V l 0 L M (proj2 PT) Hle B HM E _ _ _ _ solL solR k (smax sm) ltac:(lra) P1 P2 L ltac:(lra)) as [U1 U2]. rewrite U1, U2. ring.
    - destruct (parallel (zR L) (zR' L) (zL L) (zL' L)) as (k & _ & P1 & P2); [apply nzR; lra|apply nzL; lra|lra|].
      destruct (solution_unique V l 0 L M (proj2 PT) Hle B HM E _ _ _ _ solL solR k L ltac:(lra) P1 P2 (smax sm) ltac:(lra)) as [U1 U2]. rewrite U1, U2.
      replace (k * zR' (smax sm) * zR (smax sm) - zR' (smax sm) * (k * zR (smax sm))) with 0 by ring. apply Rabs_R0. }
  destruct (G Neumann NN) as (p & p' & Sp & Np & P0 & P1 & Gp). destruct (G Dirichlet ND) as (q & q' & Sq & Nq & Q0 & Q1 & Gq). cbn in P0, P1, Q0, Q1.
  assert (~ (err Neumann = 0 /\ err Dirichlet = 0)) as Excl.
  { intros [H1 H2]. apply Gp in H1. apply Gq in H2.
    destruct (parallel (p L) (p' L) (q L) (q' L)) as (k & Hk & K1 & K2); [apply Np; lra|apply Nq; lra| |].
    - destruct Ns as [H|H]; [apply (Rmult_eq_reg_r (y0 side))|apply (Rmult_eq_reg_r (y1 side))]; try exact H.
      + replace (p L * q' L * y0 side) with (p L * (q' L * y0 side)) by ring. rewrite <- H2. replace (p' L * q L * y0 side) with (q L * (p' L * y0 side)) by ring. rewrite <- H1. ring.
      + replace (p L * q' L * y1 side) with (q' L * (p L * y1 side)) by ring. rewrite H1. replace (p' L * q L * y1 side) with (p' L * (q L * y1 side)) by ring. rewrite H2. ring.
    - destruct (solution_unique V l 0 L M (proj2 PT) Hle B HM E _ _ _ _ Sq Sp k L ltac:(lra) K1 K2 0 ltac:(lra)) as [U1 U2]. rewrite P0, Q0 in U1. lra. }
  assert (0 <= err Neumann /\ 0 <= err Dirichlet) as [A1 A2] by (split; apply Rabs_pos).
  (* an eigenfunction of the half problem makes the error vanish *)
  assert (forall left k z z', nonzero left -> solution V E 0 L l z z' -> z 0 = y0 left -> z' 0 = y1 left -> (err left = 0 <-> z L * y1 side = z' L * y0 side) -> eigen_index V 0 L l left side k E -> err left = 0) as Z.
  { intros left k z z' NL Sz Z0 Z1 Ge (w & w' & ws & Sw & Nw & B1 & B2 & _). apply Ge.
    destruct (parallel (w 0) (w' 0) (z 0) (z' 0)) as (c & _ & K1 & K2); [apply Nw; lra|rewrite Z0, Z1; exact NL|rewrite Z0, Z1; exact B1|].
    destruct (solution_unique V l 0 L M (proj2 PT) Hle B HM E _ _ _ _ Sz Sw c 0 ltac:(lra) K1 K2 L ltac:(lra)) as [U1 U2]. rewrite U1, U2.
    replace (c * w L * y1 side) with (c * (w L * y1 side)) by ring. rewrite B2. ring. }
  unfold isEven. cbn [Z.eqb]. change (slt (err Neumann) (err Dirichlet)) with (Rltb (err Neumann) (err Dirichlet)).
  destruct (Z.Even_or_Odd n) as [[k ->]|[k ->]].
  - apply (C74_even V L l side PT Ho Bd Ev Ns) in HE. rewrite Z.even_mul. cbn [Z.even orb]. pose proof (Z Neumann k p p' NN Sp P0 P1 Gp HE) as Q. apply Rltb_true. lra || (destruct A2 as [A|A]; [lra|exfalso; apply Excl; split; [exact Q|symmetry; exact A]]).
  - apply (C74_odd V L l side PT Ho Bd Ev Ns) in HE. rewrite Z.even_add, Z.even_mul. cbn [Z.even orb eqb]. pose proof (Z Dirichlet k q q' ND Sq Q0 Q1 Gq HE) as Q. apply Rltb_false. lra.
Qed.

(** existence: piecewise constant even problems, with the step matrices of the code: every index n >= 0 of the symmetric problem belongs to
    exactly one eigenvalue *)
Theorem C74_exists_unique : forall V L l m sm side n, constant_problem V 0 L l -> even_potential V l -> vget l m = Ret sm -> smax sm < L -> nonzero side -> (0 <= n)%Z ->
  exists E, symmetric_index V L l side n E /\ forall E', symmetric_index V L l side n E' -> E' = E.
Proof.
  intros V L l m sm side n PC Ev Hm Hsm Ns Hn. pose proof PC as [PT H]. pose proof (constant_order V 0 L l PC) as Ho.
  assert (bounded_on V l) as Bd.
  { destruct (resolved_bounded V l) as (M & HM & B); [|exists M; exact B]. intros s Hs.
    destruct (constant_exact_at V 0 L l m sm Neumann side 0 PC Hm) as (C & _). apply (C s Hs). }
  assert (nonzero Neumann) as NN by (left; cbn; lra). assert (nonzero Dirichlet) as ND by (right; cbn; lra).
  destruct (Z.Even_or_Odd n) as [[k ->]|[k ->]].
  - destruct (proj1 (C72_piecewise_constant V 0 L l 0 m sm Neumann side PC Hm Hsm NN Ns) k ltac:(lia)) as (E & HE & U).
    exists E. split; [apply (C74_even V L l side PT Ho Bd Ev Ns), HE|]. intros E' H'. apply U. apply (C74_even V L l side PT Ho Bd Ev Ns), H'.
  - destruct (proj1 (C72_piecewise_constant V 0 L l 0 m sm Dirichlet side PC Hm Hsm ND Ns) k ltac:(lia)) as (E & HE & U).
    exists E. split; [apply (C74_odd V L l side PT Ho Bd Ev Ns), HE|]. intros E' H'. apply U. apply (C74_odd V L l side PT Ho Bd Ev Ns), H'.
Qed.

(** With a pure Dirichlet or Neumann condition the symmetric condition is the documented one, "left and right sides identical" *)
Theorem C74_sides : forall V L l side n E, y0 side = 0 \/ y1 side = 0 -> (symmetric_index V L l side n E <-> eigen_index V (- L) L (both_halves l) side side n E).
Proof.
  intros V L l side n E H. unfold symmetric_index, eigen_index. cbn. split; intros (z & z' & zs & S & N & B & Q); exists z, z', zs; (split; [exact S|]; split; [exact N|]; split; [|exact Q]).
  - destruct H as [H|H]; rewrite H in *; lra.
  - destruct H as [H|H]; rewrite H in *; lra.
Qed.

(** For other conditions it is not: the problem -y'' = E y on [-1, 1] with left = right = (1, 1), i.e. y = y' at both ends (the meaning of the two
    sides everywhere else in the library), has the ground state exp with E = -1, but the half-range solver given this side - which accepts only identical left and
    right sides - never returns -1, even with a half problem that is solved exactly *)
Definition robin : Y := mkY 1 1 0 0.
Lemma cosh_solution : solution (fun _ => 0) (-1) 0 1 two_sectors cosh sinh.
Proof.
  assert (forall x, is_derive cosh x (sinh x)) as D1 by (intro x; unfold cosh, sinh; auto_derive; [exact I|unfold Rdiv; ring]).
  assert (forall x, is_derive sinh x (cosh x)) as D2 by (intro x; unfold cosh, sinh; auto_derive; [exact I|unfold Rdiv; ring]).
  split.
  - intros x _. split; apply (ex_derive_continuous (V := R_NormedModule)); eexists; [apply D1|apply D2].
  - intros s x _ _. split; [apply D1|]. replace ((0 - -1) * cosh x) with (cosh x) by ring. apply D2.
Qed.
Lemma sinh_solution : solution (fun _ => 0) (-1) 0 1 two_sectors sinh cosh.
Proof.
  assert (forall x, is_derive cosh x (sinh x)) as D1 by (intro x; unfold cosh, sinh; auto_derive; [exact I|unfold Rdiv; ring]).
  assert (forall x, is_derive sinh x (cosh x)) as D2 by (intro x; unfold cosh, sinh; auto_derive; [exact I|unfold Rdiv; ring]).
  split.
  - intros x _. split; apply (ex_derive_continuous (V := R_NormedModule)); eexists; [apply D2|apply D1].
  - intros s x _ _. split; [apply D2|]. replace ((0 - -1) * sinh x) with (sinh x) by ring. apply D1.
Qed.
Lemma cosh_sinh_1 : cosh 1 <> sinh 1.
Proof. unfold cosh, sinh. pose proof (exp_pos (-1)). replace (- (1)) with (-1) by ring. lra. Qed.
Theorem C74_robin_refuted :
  eigen_index (fun _ => 0) (-1) 1 (both_halves two_sectors) robin robin 0 (-1) /\
  (forall n, ~ symmetric_index (fun _ => 0) 1 two_sectors robin n (-1)) /\
  (forall (query : Y -> Z -> Z -> res (list (Z * R))) Imin Imax r, (0 <= Imin <= Imax)%Z ->
    (forall left a b, (0 <= a <= b)%Z -> exists r, query left a b = Ret r /\ map fst r = range a b /\
      Forall (fun p => eigen_index (fun _ => 0) 0 1 two_sectors left robin (fst p) (snd p)) r) ->
    half_byIndex Neumann Dirichlet query Imin Imax = Ret r -> ~ exists n, In (n, -1) r).
Proof.
  assert (forall s : sec, In s two_sectors -> smin s <= smax s) as Hle by (intros; left; apply fp_ord; assumption).
  assert (forall left k, left = Neumann \/ left = Dirichlet -> ~ eigen_index (fun _ => 0) 0 1 two_sectors left robin k (-1)) as No.
  { intros left k Hl (z & z' & zs & S & N & B0 & B1 & _). cbn in B1. pose proof cosh_sinh_1 as CS. destruct Hl as [-> | ->]; cbn in B0.
    - destruct (solution_unique (fun _ => 0) two_sectors 0 1 0 (proj2 fp_pt) Hle fp_bound ltac:(lra) (-1) z z' _ _ S cosh_solution (z 0) 0 ltac:(lra)) with (x := 1) as [U1 U2]; [rewrite cosh_0; ring|rewrite sinh_0; lra|lra|].
      assert (z 0 <> 0) as Z0 by (destruct (N 0 ltac:(lra)); [assumption|lra]). apply CS, (Rmult_eq_reg_l (z 0)); [lra|exact Z0].
    - destruct (solution_unique (fun _ => 0) two_sectors 0 1 0 (proj2 fp_pt) Hle fp_bound ltac:(lra) (-1) z z' _ _ S sinh_solution (z' 0) 0 ltac:(lra)) with (x := 1) as [U1 U2]; [rewrite sinh_0; lra|rewrite cosh_0; ring|lra|].
      assert (z' 0 <> 0) as Z0 by (destruct (N 0 ltac:(lra)); [lra|assumption]). apply CS, (Rmult_eq_reg_l (z' 0)); [lra|exact Z0]. }
  split; [|split].
  - assert (forall x, is_derive exp x (exp x)) as D by (intro x; auto_derive; [exact I|ring]).
    exists exp, exp, []. split; [split|split; [|split; [|split; [|split; [|reflexivity]]]]].
    + intros x _. split; apply (ex_derive_continuous (V := R_NormedModule)); eexists; apply D.
    + intros s x _ _. split; [apply D|]. replace ((0 - -1) * exp x) with (exp x) by ring. apply D.
    + intros x _. left. pose proof (exp_pos x). lra.
    + cbn. ring.
    + cbn. ring.
    + split; [constructor|]. intro x. split; [intros []|]. intros [_ Q]. pose proof (exp_pos x). lra.
  - intros n H. destruct (full_to_half (fun _ => 0) 1 two_sectors robin fp_pt fp_ord ltac:(exists 0; exact fp_bound) ltac:(intros ? ? ? ?; reflexivity) ltac:(left; cbn; lra) n _ H) as (k & [[_ Q]|[_ Q]]); revert Q; apply No; [left|right]; reflexivity.
  - intros query Imin Imax r HI Hq Er [n I].
    destruct (C38_indices Neumann Dirichlet query (fun left k E => eigen_index (fun _ => 0) 0 1 two_sectors left robin k E) Imin Imax HI Hq) as (r' & Hr & _ & F).
    rewrite Er in Hr. injection Hr as <-. rewrite Forall_forall in F. destruct (F _ I) as (k & [[_ Q]|[_ Q]]); revert Q; apply No; [left|right]; reflexivity.
Qed.

(** an instance: the free particle on [-1, 1] with Dirichlet conditions: (pi / 2)^2 has index 0, pi^2 index 1 *)
Example C74_case : partition 0 1 two_sectors /\ (forall s, In s two_sectors -> smin s < smax s) /\ bounded_on (fun _ => 0) two_sectors /\ even_potential (fun _ => 0) two_sectors /\ nonzero Dirichlet /\
  symmetric_index (fun _ => 0) 1 two_sectors Dirichlet 1 (PI * PI).
Proof.
  split; [exact fp_pt|]. split; [exact fp_ord|]. assert (bounded_on (fun _ => 0) two_sectors) as Bd by (exists 0; exact fp_bound). split; [exact Bd|].
  assert (even_potential (fun _ => 0) two_sectors) as Ev by (intros ? ? ? ?; reflexivity). split; [exact Ev|].
  assert (nonzero Dirichlet) as Ns by (right; cbn; lra). split; [exact Ns|].
  apply (C74_odd (fun _ => 0) 1 two_sectors Dirichlet fp_pt fp_ord Bd Ev Ns 0). pose proof (dirichlet_index 1 ltac:(lia)) as Q. cbn [INR Z.of_nat] in Q.
  rewrite !Rmult_1_l in Q. exact Q.
Qed.

Print Assumptions C74_even.
Print Assumptions C74_odd.
Print Assumptions C74_by_index.
Print Assumptions C74_eigenvalues.
Print Assumptions C74_eigenfunction.
Print Assumptions C74_parity.
Print Assumptions C74_exists_unique.
Print Assumptions C74_sides.
Print Assumptions C74_robin_refuted.
