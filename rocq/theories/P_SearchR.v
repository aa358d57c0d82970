(** The search over the reals, for an increasing angle function. *)
From Coq Require Import String ZArith QArith Reals List Bool Lia Lra Permutation Sorted.
From Verif Require Import Base M_Search S_Search P_Search.
Import ListNotations.
Open Scope R_scope.

Lemma ceil_spec x : IZR (Rceil x) - 1 < x <= IZR (Rceil x).
Proof. unfold Rceil. rewrite opp_IZR. destruct (base_Int_part (- x)). lra. Qed.
Lemma ceil_unique x k : IZR k - 1 < x <= IZR k -> Rceil x = k.
Proof.
  intros H. pose proof (ceil_spec x) as C.
  assert (A : IZR (Rceil x) < IZR (k + 1)) by (rewrite plus_IZR; lra).
  assert (B : IZR k < IZR (Rceil x + 1)) by (rewrite plus_IZR; lra).
  apply lt_IZR in A, B. lia.
Qed.
Lemma floor_spec x : IZR (Rfloor x) <= x < IZR (Rfloor x) + 1.
Proof. unfold Rfloor. destruct (base_Int_part x). lra. Qed.
Lemma floor_unique x k : IZR k <= x < IZR k + 1 -> Rfloor x = k.
Proof.
  intros H. pose proof (floor_spec x) as C.
  assert (A : IZR (Rfloor x) < IZR (k + 1)) by (rewrite plus_IZR; lra).
  assert (B : IZR k < IZR (Rfloor x + 1)) by (rewrite plus_IZR; lra).
  apply lt_IZR in A, B. lia.
Qed.
Lemma ceil_nonint x : nonint x -> IZR (Rceil x) - 1 < x < IZR (Rceil x).
Proof. intros N. pose proof (ceil_spec x). specialize (N (Rceil x)). lra. Qed.
Lemma ceil_mono x y : x <= y -> (Rceil x <= Rceil y)%Z.
Proof.
  intros L. pose proof (ceil_spec x). pose proof (ceil_spec y).
  assert (A : IZR (Rceil x) < IZR (Rceil y + 1)) by (rewrite plus_IZR; lra). apply lt_IZR in A. lia.
Qed.
Lemma ceil_fits x : fits_int x -> toint (Rceil x) = Some (Rceil x).
Proof.
  unfold fits_int. intros [A B]. unfold toint, int_ok. pose proof (ceil_spec x).
  assert (K : IZR (-2147483649) < IZR (Rceil x)) by lra. apply lt_IZR in K.
  assert (K2 : IZR (Rceil x) < IZR (2147483648)) by lra. apply lt_IZR in K2.
  destruct (Z.leb_spec (-2147483648) (Rceil x)), (Z.leb_spec (Rceil x) 2147483647); try lia. reflexivity.
Qed.

Section R.
Variable me : R -> bool -> R * R * R.
Variable tol : R.
Notation F := (ang me).
Variables Emin Emax : R.
Hypothesis Hinc : rises_through_integers F Emin Emax.
Hypothesis Hf1 : fits_int (F Emin).
Hypothesis Hf2 : fits_int (F Emax).
Hypothesis Hlt : Emin < Emax.

Lemma F_fits x : Emin <= x <= Emax -> fits_int (F x).
Proof.
  intros [A B]. unfold fits_int in *.
  split.
  - destruct A as [A| <-]; [|lra]. apply (Hinc (-2147483649)%Z Emin x); lra.
  - destruct B as [B| -> ]; [|lra]. destruct (Rle_lt_dec (F x) 2147483647) as [|L]; [assumption|].
    assert (2147483647 < F Emax) by (apply (Hinc 2147483647%Z x Emax); lra). lra.
Qed.

Definition multi (it : item R) : Prop := (Rceil (ta_ it) + 1 < Rceil (tb_ it))%Z.
Definition good (it : item R) : Prop :=
  (Emin <= ia_ it /\ ia_ it < ib_ it /\ ib_ it <= Emax) /\ ta_ it = F (ia_ it) /\ tb_ it = F (ib_ it) /\
  nonint (ta_ it) /\ nonint (tb_ it) /\ (0 <= dep_ it)%Z /\
  (multi it -> ib_ it - ia_ it = (Emax - Emin) / powerRZ 2 (dep_ it)).
Definition spans (it : item R) (k : Z) : bool := Rltb (ta_ it) (IZR k) && Rltb (IZR k) (tb_ it).
Lemma spans_true it k : spans it k = true <-> ta_ it < IZR k < tb_ it.
Proof. unfold spans. rewrite andb_true_iff, !Rltb_true. tauto. Qed.
Definition cnt (k : Z) (q : list (item R)) : nat := length (filter (fun it => spans it k) q).
Lemma cnt_app k q q' : cnt k (q ++ q') = (cnt k q + cnt k q')%nat.
Proof. unfold cnt. rewrite filter_app, app_length. reflexivity. Qed.
Lemma cnt_cons k it q : cnt k (it :: q) = ((if spans it k then 1 else 0) + cnt k q)%nat.
Proof. unfold cnt. cbn [filter]. destruct (spans it k); reflexivity. Qed.
Lemma spans_ceil it k : nonint (ta_ it) -> nonint (tb_ it) ->
  (spans it k = true <-> (Rceil (ta_ it) <= k < Rceil (tb_ it))%Z).
Proof.
  intros N1 N2. rewrite spans_true. pose proof (ceil_nonint _ N1) as C1. pose proof (ceil_nonint _ N2) as C2.
  split.
  - intros [A B].
    assert (K : IZR (Rceil (ta_ it)) < IZR (k + 1)) by (rewrite plus_IZR; lra). apply lt_IZR in K.
    assert (K2 : IZR k < IZR (Rceil (tb_ it))) by lra. apply lt_IZR in K2. lia.
  - intros [A B]. assert (B' : (k + 1 <= Rceil (tb_ it))%Z) by lia. apply IZR_le in A, B'. rewrite plus_IZR in B'. lra.
Qed.

(** What one turn of the loop does with a good item. *)
Lemma step_good Imin Imax it : good it -> exists act, step me Imin Imax it = Ret act /\
  match act with
  | Skip => forall k, (Imin <= k < Imax)%Z -> spans it k = false
  | Drop _ => False
  | Leaf c => ia_ it < c < ib_ it /\ (Imin < Rceil (tb_ it) /\ Rceil (ta_ it) < Imax)%Z /\
      (Rceil (ta_ it) < Rceil (tb_ it))%Z /\ (multi it -> (30 < dep_ it)%Z)
  | LeafAt c => ia_ it < c < ib_ it /\ (Imin < Rceil (tb_ it) /\ Rceil (ta_ it) < Imax)%Z /\
      (Rceil (tb_ it) = Rceil (ta_ it) + 1)%Z
  | Push c l => ia_ it < c < ib_ it /\ (nonint (F c) -> Forall good l /\ forall k, cnt k l = (if spans it k then 1 else 0)%nat)
  end.
Proof.
  destruct it as [a ta b tb d]. intros ((Ha & Hab & Hb) & Eta & Etb & N1 & N2 & Hd & Hw). cbn [ia_ ib_ ta_ tb_ dep_] in *.
  unfold step. simpl iceil. rewrite (ceil_fits ta), (ceil_fits tb) by (rewrite ?Eta, ?Etb; apply F_fits; lra).
  cbn [oint bind]. simpl sle. destruct (Rleb tb ta) eqn:E0.
  { apply Rleb_true in E0. cbn [orb]. eexists; split; [reflexivity|]. intros k Hk. apply not_true_iff_false. rewrite spans_true. cbn [ta_ tb_]. lra. }
  apply Rleb_false in E0. cbn [orb].
  pose proof (ceil_nonint _ N1) as C1. pose proof (ceil_nonint _ N2) as C2.
  pose proof (ceil_mono ta tb ltac:(lra)) as CM.
  set (ia := Rceil ta) in *. set (ib := Rceil tb) in *.
  destruct (Z.eqb_spec ia ib) as [Eq|Ne]; cbn [orb].
  { eexists; split; [reflexivity|]. intros k Hk. apply not_true_iff_false. rewrite spans_ceil by auto. cbn [ta_ tb_]. fold ia ib. lia. }
  destruct (Z.leb_spec ib Imin) as [Hi|Hi]; cbn [orb].
  { eexists; split; [reflexivity|]. intros k Hk. apply not_true_iff_false. rewrite spans_ceil by auto. cbn [ta_ tb_]. fold ia ib. lia. }
  destruct (Z.leb_spec Imax ia) as [Hi2|Hi2].
  { eexists; split; [reflexivity|]. intros k Hk. apply not_true_iff_false. rewrite spans_ceil by auto. cbn [ta_ tb_]. fold ia ib. lia. }
  set (c := if (ia + 1 <? ib)%Z || _ || _ then _ else _).
  assert (Hc : a < c < b).
  { unfold c. destruct ((ia + 1 <? ib)%Z || _ || _) eqn:Ec.
    - unfold sofQ, smul, sadd, Scalar_R. cbn [Qnum Qden]. lra.
    - apply orb_false_iff in Ec. destruct Ec as [Ec _]. apply orb_false_iff in Ec. destruct Ec as [Ec _].
      apply Z.ltb_ge in Ec. assert (K : ib = (ia + 1)%Z) by lia. rewrite K, plus_IZR in C2.
      unfold sofZ, smul, ssub, sdiv, Scalar_R.
      assert (D : 0 < tb - ta) by lra.
      assert (I1 : (((tb - IZR ia) * a - (ta - IZR ia) * b) / (tb - ta)) - a = (IZR ia - ta) * (b - a) / (tb - ta)) by (field; lra).
      assert (I2 : b - (((tb - IZR ia) * a - (ta - IZR ia) * b) / (tb - ta)) = (tb - IZR ia) * (b - a) / (tb - ta)) by (field; lra).
      assert (0 < (IZR ia - ta) * (b - a) / (tb - ta)) by (apply Rdiv_lt_0_compat; auto; apply Rmult_lt_0_compat; lra).
      assert (0 < (tb - IZR ia) * (b - a) / (tb - ta)) by (apply Rdiv_lt_0_compat; auto; apply Rmult_lt_0_compat; lra).
      lra. }
  assert (Cm : (ia + 1 < ib)%Z -> c = (a + b) / 2).
  { intros Hm. unfold c. destruct (Z.ltb_spec (ia + 1) ib); [|lia]. cbn [orb].
    unfold sofQ, smul, sadd, Scalar_R. cbn [Qnum Qden]. lra. }
  clearbody c.
  destruct (_ || _) eqn:El.
  { eexists; split; [reflexivity|]. split; [exact Hc|]. split; [cbn [ta_ tb_]; lia|]. split; [fold ia ib; lia|].
    intros Hm. unfold multi in Hm. cbn [ta_ tb_ dep_] in *. fold ia ib in Hm.
    apply orb_true_iff in El. destruct El as [El|El]; [|apply Z.ltb_lt in El; exact El].
    apply andb_true_iff in El. destruct El as [El _]. simpl slt in El. apply Rltb_true in El.
    unfold ssub, sofQ, Scalar_R in El. cbn [Qnum Qden] in El.
    assert (K : (ia + 2 <= ib)%Z) by lia. apply IZR_le in K. rewrite plus_IZR in K. lra. }
  assert (Lc1 : forall k, IZR k <= ta -> IZR k < F c) by (intros k Hk; apply (Hinc k a c); try lra; rewrite <- Eta; exact Hk).
  assert (Lc2 : forall k, IZR k <= F c -> IZR k < tb) by (intros k Hk; rewrite Etb; apply (Hinc k c b); lra).
  simpl snan. cbv beta iota.
  assert (Hpow : powerRZ 2 (d + 1) = powerRZ 2 d * 2).
  { rewrite powerRZ_add by lra. change (powerRZ 2 1) with (2 * 1). lra. }
  assert (Ppos : 0 < powerRZ 2 d) by (apply powerRZ_lt; lra).
  destruct (Z.ltb_spec (ia + 1) ib) as [Hm|Hm].
  { eexists; split; [reflexivity|]. split; [exact Hc|]. intros N. specialize (Cm Hm).
    assert (W : b - a = (Emax - Emin) / powerRZ 2 d) by (apply Hw; unfold multi; cbn [ta_ tb_]; exact Hm).
    split.
    - apply Forall_cons; [|apply Forall_cons; [|apply Forall_nil]]; unfold good; cbn [ia_ ib_ ta_ tb_ dep_];
        (split; [lra|]); (split; [auto|]); (split; [auto|]); (split; [auto|]); (split; [auto|]); (split; [lia|]); intros _;
        replace (1 + d)%Z with (d + 1)%Z by lia; rewrite Hpow, Cm;
        (replace ((Emax - Emin) / (powerRZ 2 d * 2)) with ((Emax - Emin) / powerRZ 2 d / 2) by (field; lra)); rewrite <- W; lra.
    - intros k. rewrite !cnt_cons. cbn [cnt filter length].
      unfold spans; cbn [ta_ tb_]. specialize (N k). specialize (Lc1 k). specialize (Lc2 k).
      destruct (Rltb ta (IZR k)) eqn:E1, (Rltb (IZR k) (F c)) eqn:E2, (Rltb (F c) (IZR k)) eqn:E3, (Rltb (IZR k) tb) eqn:E4; cbn; try reflexivity;
        rewrite ?Rltb_true, ?Rltb_false in *; destruct (Rtotal_order (F c) (IZR k)) as [?|[?|?]]; first [contradiction | lra]. }
  assert (Ib : ib = (ia + 1)%Z) by lia. rewrite Ib, plus_IZR in C2.
  destruct (slt (sabs _) _) eqn:Ea.
  { eexists; split; [reflexivity|]. split; [exact Hc|]. cbn [ta_ tb_]. fold ia ib. lia. }
  destruct (slt (smul _ _) _) eqn:Es; (eexists; split; [reflexivity|]; split; [exact Hc|]); intros N;
    simpl slt in Es; unfold smul, ssub, sofZ, Scalar_R in Es; rewrite ?Rltb_true, ?Rltb_false in Es; change (snd (me c true) / PI) with (F c) in Es.
  - assert (K : IZR ia < F c).
    { destruct (Rlt_dec (IZR ia) (F c)); auto. exfalso.
      assert (0 <= (IZR ia - ta) * (IZR ia - F c)) by (apply Rmult_le_pos; lra). nra. }
    assert (Cc : Rceil (F c) = (ia + 1)%Z).
    { apply ceil_unique. rewrite plus_IZR. split; [lra|]. destruct (Rle_lt_dec (F c) (IZR ia + 1)) as [|G]; [assumption|].
      assert (IZR (ia + 1) < tb) as G' by (apply Lc2; rewrite plus_IZR; lra). rewrite plus_IZR in G'. lra. }
    split.
    + apply Forall_cons; [|apply Forall_nil]; unfold good; cbn [ia_ ib_ ta_ tb_ dep_].
      split; [lra|]. split; [auto|]. split; [auto|]. split; [auto|]. split; [auto|]. split; [lia|].
      unfold multi; cbn [ta_ tb_]. rewrite Cc. fold ia. lia.
    + intros k. rewrite cnt_cons. cbn [cnt filter length].
      destruct (spans (mkItem a ta c (F c) (d + 1)) k) eqn:Q1, (spans (mkItem a ta b tb d) k) eqn:Q2; try reflexivity; exfalso.
      * apply (proj1 (spans_ceil (mkItem a ta c (F c) (d+1)) k N1 N)) in Q1. apply not_true_iff_false in Q2. rewrite spans_ceil in Q2 by auto. cbn [ta_ tb_] in *. fold ia ib in Q1, Q2. lia.
      * apply (proj1 (spans_ceil (mkItem a ta b tb d) k N1 N2)) in Q2. apply not_true_iff_false in Q1. rewrite spans_ceil in Q1 by auto. cbn [ta_ tb_] in *. fold ia ib in Q1, Q2. lia.
  - assert (K : F c < IZR ia).
    { specialize (N ia). destruct (Rlt_dec (F c) (IZR ia)); auto. exfalso.
      assert (0 < (IZR ia - ta) * (F c - IZR ia)) by (apply Rmult_lt_0_compat; lra). nra. }
    assert (Cc : Rceil (F c) = ia).
    { apply ceil_unique. assert (IZR (ia - 1) < F c) as G by (apply Lc1; rewrite minus_IZR; lra). rewrite minus_IZR in G. lra. }
    split.
    + apply Forall_cons; [|apply Forall_nil]; unfold good; cbn [ia_ ib_ ta_ tb_ dep_].
      split; [lra|]. split; [auto|]. split; [auto|]. split; [auto|]. split; [auto|]. split; [lia|].
      unfold multi; cbn [ta_ tb_]. rewrite Cc. fold ib. lia.
    + intros k. rewrite cnt_cons. cbn [cnt filter length].
      destruct (spans (mkItem c (F c) b tb (d + 1)) k) eqn:Q1, (spans (mkItem a ta b tb d) k) eqn:Q2; try reflexivity; exfalso.
      * apply (proj1 (spans_ceil (mkItem c (F c) b tb (d+1)) k N N2)) in Q1. apply not_true_iff_false in Q2. rewrite spans_ceil in Q2 by auto. cbn [ta_ tb_] in *. fold ia ib in Q1, Q2. lia.
      * apply (proj1 (spans_ceil (mkItem a ta b tb d) k N1 N2)) in Q2. apply not_true_iff_false in Q1. rewrite spans_ceil in Q1 by auto. cbn [ta_ tb_] in *. fold ia ib in Q1, Q2. lia.
Qed.
Definition leafok (Imin Imax : Z) (lf : leaf R) : Prop :=
  good (lit lf) /\ ia_ (lit lf) < lc lf < ib_ (lit lf) /\
  Rceil (tb_ (lit lf)) = (Rceil (ta_ (lit lf)) + 1)%Z /\ (Imin <= Rceil (ta_ (lit lf)) < Imax)%Z.

Lemma crossing it k : continuous_on F Emin Emax -> good it -> spans it k = true ->
  exists E, ia_ it < E < ib_ it /\ eigenvalue_of F k E.
Proof.
  intros HC ((Ha & Hab & Hb) & Eta & Etb & _) S. apply spans_true in S. rewrite Eta, Etb in S.
  destruct (Ranalysis5.IVT_interv (fun x => F x - IZR k) (ia_ it) (ib_ it)) as [z [[Z1 Z2] Z3]].
  - intros x Hx. apply continuity_pt_minus; [apply HC; lra|apply continuity_pt_const; intros ? ?; reflexivity].
  - lra. - lra. - lra.
  - exists z. unfold eigenvalue_of. split; [|lra].
    assert (z <> ia_ it) by (intros ->; lra). assert (z <> ib_ it) by (intros ->; lra). lra.
Qed.
Lemma multi_depth it : continuous_on F Emin Emax -> separated F Emin Emax ((Emax - Emin) / 2 ^ 31) ->
  good it -> multi it -> (dep_ it <= 30)%Z.
Proof.
  intros HC HS G M. pose proof G as ((Ha & Hab & Hb) & Eta & Etb & N1 & N2 & Hd & Hw).
  destruct (crossing it (Rceil (ta_ it)) HC G) as (x & Hx & Ex).
  { apply spans_ceil; auto. unfold multi in M. lia. }
  destruct (crossing it (Rceil (ta_ it) + 1) HC G) as (y & Hy & Ey).
  { apply spans_ceil; auto. unfold multi in M. lia. }
  assert (L : x < y).
  { destruct (Rlt_dec x y); auto. exfalso. unfold eigenvalue_of in *. rewrite plus_IZR in Ey.
    assert (y = x \/ y < x) as [->|L] by lra; [lra|]. assert (IZR (Rceil (ta_ it)) < F x) by (apply (Hinc (Rceil (ta_ it)) y x); lra). lra. }
  assert (S := HS _ _ x y ltac:(lra) L ltac:(lra) Ex Ey).
  specialize (Hw M). destruct (Z.le_gt_cases (dep_ it) 30) as [|G31]; auto. exfalso.
  assert (P : powerRZ 2 31 <= powerRZ 2 (dep_ it)).
  { replace (dep_ it) with (31 + (dep_ it - 31))%Z by lia. rewrite powerRZ_add by lra.
    assert (1 <= powerRZ 2 (dep_ it - 31)).
    { assert (Hn : exists n, (dep_ it - 31)%Z = Z.of_nat n) by (exists (Z.to_nat (dep_ it - 31)); lia).
      destruct Hn as [n ->]. rewrite <- pow_powerRZ. apply pow_R1_Rle. lra. }
    assert (0 < powerRZ 2 31) by (apply powerRZ_lt; lra). nra. }
  assert (P0 : 0 < powerRZ 2 31) by (apply powerRZ_lt; lra).
  change (powerRZ 2 31) with (2 ^ 31) in P, P0.
  assert (Q : (Emax - Emin) / powerRZ 2 (dep_ it) <= (Emax - Emin) / 2 ^ 31).
  { unfold Rdiv. apply Rmult_le_compat_l; [lra|]. apply Rinv_le_contravar; auto. }
  lra.
Qed.


(** Without the assumption on the probes: the search still returns. *)
Definition weak (it : item R) : Prop :=
  Emin <= ia_ it /\ ia_ it <= ib_ it /\ ib_ it <= Emax /\ ta_ it = F (ia_ it) /\ tb_ it = F (ib_ it) /\ (0 <= dep_ it)%Z.
Lemma good_weak it : good it -> weak it.
Proof. intros (? & ? & ? & ? & ? & ? & ?). unfold weak. repeat split; auto; lra. Qed.
Lemma step_weak Imin Imax it : weak it -> exists act, step me Imin Imax it = Ret act /\
  match act with
  | Push c l => Emin <= c <= Emax /\ Forall weak l
  | Leaf c | LeafAt c | Drop c => Emin <= c <= Emax
  | Skip => True
  end.
Proof.
  destruct it as [a ta b tb d]. intros (Ha & Hab & Hb & Eta & Etb & Hd). cbn [ia_ ib_ ta_ tb_ dep_] in *.
  unfold step. simpl iceil. rewrite (ceil_fits ta), (ceil_fits tb) by (rewrite ?Eta, ?Etb; apply F_fits; lra).
  cbn [oint bind].
  pose proof (ceil_spec ta) as C1. pose proof (ceil_spec tb) as C2. pose proof (ceil_mono ta tb) as CM.
  set (ia := Rceil ta) in *. set (ib := Rceil tb) in *.
  destruct (sle tb ta) eqn:Ele; cbn [orb]; [eexists; split; [reflexivity|exact I]|].
  simpl sle in Ele. apply Rleb_false in Ele. specialize (CM ltac:(lra)).
  destruct (Z.eqb_spec ia ib) as [?|Ne]; cbn [orb]; [eexists; split; [reflexivity|exact I]|].
  assert (K : (ia + 1 <= ib)%Z) by lia. apply IZR_le in K. rewrite plus_IZR in K.
  destruct (_ || _); [eexists; split; [reflexivity|exact I]|].
  set (c := if (ia + 1 <? ib)%Z || _ || _ then _ else _).
  assert (Hc : a <= c <= b).
  { unfold c. destruct (_ || _) eqn:Ec.
    - unfold sofQ, smul, sadd, Scalar_R. cbn [Qnum Qden]. lra.
    - unfold sofZ, smul, ssub, sdiv, Scalar_R.
      assert (D : 0 < tb - ta) by lra.
      assert (I1 : (((tb - IZR ia) * a - (ta - IZR ia) * b) / (tb - ta)) - a = (IZR ia - ta) * (b - a) / (tb - ta)) by (field; lra).
      assert (I2 : b - (((tb - IZR ia) * a - (ta - IZR ia) * b) / (tb - ta)) = (tb - IZR ia) * (b - a) / (tb - ta)) by (field; lra).
      assert (P : 0 < / (tb - ta)) by (apply Rinv_0_lt_compat; lra).
      assert (0 <= (IZR ia - ta) * (b - a) / (tb - ta)) by (apply Rmult_le_pos; [apply Rmult_le_pos; lra|lra]).
      assert (0 <= (tb - IZR ia) * (b - a) / (tb - ta)) by (apply Rmult_le_pos; [apply Rmult_le_pos; lra|lra]).
      lra. }
  clearbody c.
  destruct (_ || _); [eexists; split; [reflexivity|lra]|].
  simpl snan. cbv beta iota.
  destruct (ia + 1 <? ib)%Z; [eexists; split; [reflexivity|]; split; [lra|]; apply Forall_cons; [|apply Forall_cons; [|apply Forall_nil]];
     unfold weak; cbn [ia_ ib_ ta_ tb_ dep_]; repeat split; auto; solve [lra|lia]|].
  destruct (slt (sabs _) _); [eexists; split; [reflexivity|lra]|].
  destruct (slt (smul _ _) _); (eexists; split; [reflexivity|]; split; [lra|]; apply Forall_cons; [|apply Forall_nil];
     unfold weak; cbn [ia_ ib_ ta_ tb_ dep_]; repeat split; auto; solve [lra|lia]).
Qed.
Lemma bisect_weak fuel : forall Imin Imax q, Forall weak q -> (sumZ wt q <= Z.of_nat fuel)%Z ->
  exists r, bisect me fuel Imin Imax q = Ret r /\ Forall (fun c => Emin <= c <= Emax) (snd r).
Proof.
  induction fuel as [|f IH]; intros Imin Imax q Hq Hw.
  - destruct q as [|it q]; cbn [bisect]; [eexists; split; [reflexivity|constructor]|].
    rewrite sumZ_cons in Hw. pose proof (w_pos it). pose proof (sumZ_nonneg q). lia.
  - destruct q as [|it q]; cbn [bisect]; [eexists; split; [reflexivity|constructor]|].
    inversion Hq as [|? ? Hg Hq']; subst. rewrite sumZ_cons in Hw. pose proof (w_pos it) as (W1 & _).
    destruct (step_weak Imin Imax it Hg) as (act & Es & A). rewrite Es. cbn [bind].
    destruct act as [|c|c|c l|c].
    + apply IH; auto. lia.
    + destruct (IH Imin Imax q Hq' ltac:(lia)) as (r & -> & Hr). cbn [bind]. eexists; split; [reflexivity|auto].
    + destruct (IH Imin Imax q Hq' ltac:(lia)) as (r & -> & Hr). cbn [bind]. eexists; split; [reflexivity|auto]. constructor; auto.
    + assert (D : (0 <= dep_ it)%Z) by (destruct Hg as (_ & _ & _ & _ & _ & D); exact D).
      destruct (step_push _ _ _ _ _ _ D Es) as (_ & S1 & _). destruct A as [A1 A2].
      destruct (IH Imin Imax (q ++ l)) as (r & -> & Hr); [apply Forall_app; auto|rewrite sumZ_app; lia|].
      cbn [bind]. eexists; split; [reflexivity|]. constructor; auto.
    + destruct (IH Imin Imax q Hq' ltac:(lia)) as (r & -> & Hr). cbn [bind]. eexists; split; [reflexivity|auto].
Qed.

Lemma bisect_good fuel : forall Imin Imax q r, Forall good q -> 
  continuous_on F Emin Emax -> separated F Emin Emax ((Emax - Emin) / 2 ^ 31) ->
  bisect me fuel Imin Imax q = Ret r -> Forall (fun c => nonint (F c)) (snd r) ->
  Forall (leafok Imin Imax) (fst r) /\ forall k, (Imin <= k < Imax)%Z -> cnt k (map lit (fst r)) = cnt k q.
Proof.
  induction fuel as [|f IH]; intros Imin Imax q r Hq HC HS.
  - destruct q as [|it q]; cbn [bisect]; [|discriminate]. intros K _; injection K as <-. split; [constructor|reflexivity].
  - destruct q as [|it q]; cbn [bisect]. { intros K _; injection K as <-. split; [constructor|reflexivity]. }
    inversion Hq as [|? ? Hg Hq']; subst.
    destruct (step_good Imin Imax it Hg) as (act & Es & A). rewrite Es. cbn [bind].
    pose proof Hg as (_ & _ & _ & N1 & N2 & _ & _).
    destruct act as [|c|c|c l|c].
    + intros K N. destruct (IH _ _ _ _ Hq' HC HS K N) as [B1 B2]. split; auto. intros k Hk. rewrite cnt_cons, (A k Hk), (B2 k Hk). reflexivity.
    + destruct (bisect me f Imin Imax q) as [r0|s|s|] eqn:Eb; cbn [bind]; try discriminate. intros K N; injection K as <-. cbn [fst snd] in *.
      destruct (IH _ _ _ _ Hq' HC HS Eb N) as [B1 B2]. destruct A as (A1 & A2 & A3 & A4).
      assert (C1 : Rceil (tb_ it) = (Rceil (ta_ it) + 1)%Z).
      { destruct (Z.eq_dec (Rceil (tb_ it)) (Rceil (ta_ it) + 1)); auto. exfalso.
        assert (M : multi it) by (unfold multi; lia). specialize (A4 M). pose proof (multi_depth it HC HS Hg M). lia. }
      split. { constructor; auto. split; [exact Hg|]. cbn [lc lit]. split; [exact A1|]. split; [exact C1|]. lia. }
      intros k Hk. cbn [map lit]. rewrite !cnt_cons, (B2 k Hk). reflexivity.
    + destruct A.
    + destruct (bisect me f Imin Imax (q ++ l)) as [r0|s|s|] eqn:Eb; cbn [bind]; try discriminate. intros K N; injection K as <-. cbn [fst snd] in *.
      inversion N as [|? ? Nc N']; subst. destruct A as [A1 A2]. destruct (A2 Nc) as [G C].
      destruct (IH _ _ (q ++ l) r0 ltac:(apply Forall_app; auto) HC HS Eb N') as [B1 B2]. split; auto.
      intros k Hk. rewrite (B2 k Hk), cnt_app, cnt_cons, C. lia.
    + destruct (bisect me f Imin Imax q) as [r0|s|s|] eqn:Eb; cbn [bind]; try discriminate. intros K N; injection K as <-. cbn [fst snd] in *.
      destruct (IH _ _ _ _ Hq' HC HS Eb N) as [B1 B2]. destruct A as (A1 & A2 & A3).
      split. { constructor; auto. split; [exact Hg|]. cbn [lc lit]. split; [exact A1|]. split; [exact A3|]. lia. }
      intros k Hk. cbn [map lit]. rewrite !cnt_cons, (B2 k Hk). reflexivity.
Qed.
End R.
