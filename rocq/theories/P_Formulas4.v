(** Derivative rows, full step against partial step, derivative in the energy. *)
From Coq Require Import String Reals ZArith Lra Lia.
From Coquelicot Require Import Coquelicot.
From Coq Require Import List Bool.
From Verif Require Import Base S_Eta P_Eta M_Eta P_Eta2 S_Poly S_Legendre S_Formulas M_Sectors M_TableData M_Core M_Formulas
  P_Terms P_Terms2 P_Formulas P_Formulas2 P_Formulas3.
Import ListNotations.
Open Scope R_scope.

(** ---- derivative rows *)
Definition der_polys (c : nat) : nat -> list monomial := polys (der_highs 16 0 [] (acol c) (acol (c + 2))).
Lemma der_polys_order : forall c i m, In m (der_polys c i) -> (16 <= order m)%nat.
Proof. intros c. unfold der_polys. apply polys_order. intros r t. apply der_highs_deg. Qed.
Lemma der_check : forall c, (c < 2)%nat -> der_ok 16 0 [] (acol c) (acol (c + 2)) = true.
Proof. intros [|[|c]] H; [apply der_check0|apply der_check1|lia]. Qed.
Lemma der_highs_length : forall n l m i c, List.length l = List.length m -> List.length (der_highs n i c l m) = List.length l.
Proof. induction l; intros [|d m] i c H; cbn [der_highs List.length] in *; try lia. rewrite IHl; lia. Qed.
Lemma first_val : forall c v h x, (c < 2)%nat -> leval v h x (hd [] (acol c)) = if (c =? 0)%nat then IZR DD else 0.
Proof.
  intros [|[|c]] v h x H; [| |lia]; destruct first_coeff as [E0 E1]; [rewrite E0|rewrite E1]; cbn [leval fold_right teval vprod pow Nat.eqb]; ring.
Qed.

Theorem derivative_row : forall c, (c < 2)%nat -> forall v h E x,
  is_derive (fun x => tent c (step_delta eta_exact v h E x)) x
    (tent (c + 2) (step_delta eta_exact v h E x)
     + rsum 9 (fun i => poly_val v h x (der_polys c i) * eta i ((v 0%nat - E) * (x * x)))).
Proof.
  intros c Hc v h E x. set (w := v 0%nat - E).
  assert (forall x, tent c (step_delta eta_exact v h E x) = / IZR DD * ysum v h w 0 (acol c) x) as Ht.
  { intro z. rewrite step_delta_val by lia. destruct (Nat.eqb_spec c 2); [lia|]. fold w. ring. }
  apply (is_derive_ext (fun x => / IZR DD * ysum v h w 0 (acol c) x)); [intro; symmetry; apply Ht|].
  evar_last; [apply (is_derive_scal (ysum v h w 0 (acol c))); apply ysum_derive|].
  unfold der_polys. rewrite <- hsum_polys by (rewrite der_highs_length; rewrite ?acol_length; reflexivity).
  rewrite step_delta_val by lia. fold w.
  pose proof (der_check c Hc) as Hk. pose proof (first_val c v h x Hc) as Hf. pose proof (acol_length c) as HL.
  rewrite ysum_hsum.
  destruct (acol c) as [|a l]; [discriminate|]. cbn [hd] in Hf.
  pose proof (der_val0 v h w 16 a l (acol (c + 2)) x Hk) as Hd. rewrite Hf in Hd.
  replace (y1sum v h w 0 (a :: l) x) with (hsum v h w 0 (acol (c + 2)) x + (if (c =? 0)%nat then IZR DD else 0) * (w * x * eta 1 (w * (x * x))) + hsum v h w 0 (der_highs 16 0 [] (a :: l) (acol (c + 2))) x) by lra.
  pose proof DD_nz. destruct c as [|[|c]]; [| |lia]; cbn [Nat.eqb Nat.add]; field; assumption.
Qed.

(** ---- full step *)
Definition hcol (q i : nat) : list term := flat_entry dens 0 0 (th_src i q).
Lemma hcol_val : forall v h q i x, (i < 10)%nat -> leval v h x (hcol q i) = IZR DD * tcoeff_h v h q i.
Proof.
  intros v h q i x Hi. unfold hcol. rewrite flat_entry_val.
  - unfold tcoeff_h. simpl pow. ring.
  - unfold th_src. apply nth_ok; [reflexivity|]. apply nth_ok; [reflexivity|]. apply dens_th.
Qed.
Lemma tcollapse_val : forall v h x l, leval v h x (map tcollapse l) = leval v h h l.
Proof.
  induction l as [|[c a b m] l IH]; [reflexivity|]. cbn [map leval fold_right tcollapse teval].
  fold (leval v h x (map tcollapse l)). fold (leval v h h l). rewrite IH, pow_add. simpl (x ^ 0). ring.
Qed.
(** d - a, for the full step table d and the partial step table a at delta = h *)
Definition fdiff (q i : nat) : list term := hcol q i ++ map (tsc (-1)) (map tcollapse (nth i (acol q) [])).
(** terms allowed in the difference: order >= 17, and in entry (1,0) the terms linear in v14 *)
Definition fallowed (q : nat) (t : term) : bool :=
  let (_, a, b, l) := t in
  (17 <=? a + b)%nat || ((q =? 2)%nat && (15 <=? a + b)%nat && match l with [k] => (k =? 14)%nat | _ => false end).
Definition fcheck (q i : nat) : bool := is_zero (filter (fun t => negb (fallowed q t)) (fdiff q i)).
Lemma fcheck_ok : forallb (fun q => forallb (fcheck q) (seq 0 10)) (seq 0 4) = true.
Proof. vm_cast_no_check (eq_refl true). Qed.
Definition full_polys (q i : nat) : list monomial := map to_mono (filter (fallowed q) (fdiff q i)).
Lemma full_polys_order : forall q i m, In m (full_polys q i) ->
  (17 <= order m)%nat \/ (q = 2%nat /\ m_vs m = [14%nat] /\ (15 <= order m)%nat).
Proof.
  intros q i m Hm. unfold full_polys in Hm. apply in_map_iff in Hm. destruct Hm as ([c a b l] & <- & Ht).
  apply filter_In in Ht. destruct Ht as [_ Ht]. unfold fallowed in Ht. apply orb_prop in Ht. destruct Ht as [Ht|Ht].
  - left. apply Nat.leb_le in Ht. exact Ht.
  - right. apply andb_prop in Ht. destruct Ht as [Ht Hl]. apply andb_prop in Ht. destruct Ht as [Hq Hd].
    apply Nat.eqb_eq in Hq. apply Nat.leb_le in Hd. destruct l as [|k [|]]; try discriminate. apply Nat.eqb_eq in Hl. subst.
    repeat split. exact Hd.
Qed.
Lemma fdiff_val : forall q i v h, (q < 4)%nat -> (i < 10)%nat ->
  tcoeff_h v h q i = (if (i <? 9)%nat then horner (tcoeff v h q i) h HMAX_delta else 0) + poly_val v h h (full_polys q i).
Proof.
  intros q i v h Hq Hi.
  assert (fcheck q i = true) as Hf.
  { pose proof fcheck_ok as H. rewrite forallb_forall in H. specialize (H q). rewrite forallb_forall in H.
    apply H; apply in_seq; lia. }
  unfold fcheck in Hf. apply (is_zero_val v h h) in Hf.
  pose proof (leval_split v h h (fallowed q) (fdiff q i)) as Hs. rewrite Hf, Rplus_0_r in Hs.
  unfold fdiff in Hs at 1. rewrite leval_app, leval_tsc, tcollapse_val, hcol_val in Hs by exact Hi.
  unfold full_polys. pose proof (to_mono_val v h h (filter (fallowed q) (fdiff q i))) as Hm. rewrite <- Hs in Hm.
  pose proof DD_nz as HD. apply (Rmult_eq_reg_l (IZR DD)); [|exact HD]. rewrite Rmult_plus_distr_l, Hm.
  destruct (Nat.ltb_spec i 9).
  - rewrite acol_val by assumption. ring.
  - rewrite nth_overflow by (rewrite acol_length; exact H). change (leval v h h []) with 0. ring.
Qed.

Lemma rsum_plus : forall n f g, rsum n (fun k => f k + g k) = rsum n f + rsum n g.
Proof. induction n; intros; cbn [rsum]; [ring|]. rewrite IHn. ring. Qed.

Lemma step_full_val : forall v h E q, (q < 4)%nat ->
  tent q (step_full eta_exact v h E)
  = (if (q =? 2)%nat then (v 0%nat - E) * h * eta 1 ((v 0%nat - E) * (h * h)) else 0)
    + rsum 10 (fun i => tcoeff_h v h q i * eta i ((v 0%nat - E) * (h * h))).
Proof.
  intros v h E q Hq.
  assert (forall q base, acc_eta ETA_h base (tcoeff_h v h q)
     (fun i => nth i (eta_exact ETA_h ((v 0%nat - E) * h * h)) 0)
     = base + rsum 10 (fun i => tcoeff_h v h q i * eta i ((v 0%nat - E) * (h * h)))) as H.
  { intros q0 base. rewrite acc_eta_val. unfold ETA_h. apply (f_equal (Rplus base)). apply rsum_ext. intros i Hi.
    rewrite eta_exact_nth by exact Hi. rewrite Rmult_assoc. reflexivity. }
  unfold step_full. destruct q as [|[|[|[|q]]]]; [| | | |lia]; cbn [tent t00 t01 t10 t11 Nat.eqb]; rewrite H.
  - reflexivity.
  - reflexivity.
  - rewrite eta_exact_nth by (unfold ETA_h; lia). rewrite !Rmult_assoc. reflexivity.
  - reflexivity.
Qed.
Lemma step_delta_val2 : forall v h E x q, (q < 4)%nat ->
  tent q (step_delta eta_exact v h E x)
  = (if (q =? 2)%nat then (v 0%nat - E) * x * eta 1 ((v 0%nat - E) * (x * x)) else 0)
    + rsum 9 (fun i => horner (tcoeff v h q i) x HMAX_delta * eta i ((v 0%nat - E) * (x * x))).
Proof.
  intros. rewrite step_delta_val by assumption. f_equal. rewrite ysum_hsum, hsum_rsum, acol_length, <- rsum_scal.
  apply rsum_ext. intros i Hi. rewrite acol_val by exact Hi. cbn [Nat.add]. field. apply DD_nz.
Qed.

Theorem full_vs_partial : forall q, (q < 4)%nat -> forall v h E,
  tent q (step_full eta_exact v h E)
  = tent q (step_delta eta_exact v h E h)
    + rsum 10 (fun i => poly_val v h h (full_polys q i) * eta i ((v 0%nat - E) * (h * h))).
Proof.
  intros q Hq v h E. rewrite step_full_val, step_delta_val2 by exact Hq. rewrite Rplus_assoc. f_equal.
  assert (rsum 9 (fun i => horner (tcoeff v h q i) h HMAX_delta * eta i ((v 0%nat - E) * (h * h)))
    = rsum 10 (fun i => (if (i <? 9)%nat then horner (tcoeff v h q i) h HMAX_delta else 0) * eta i ((v 0%nat - E) * (h * h)))) as ->.
  { change (rsum 10 ?f) with (rsum 9 f + f 9%nat). cbv beta. change (9 <? 9)%nat with false. cbv iota. rewrite Rmult_0_l, Rplus_0_r.
    apply rsum_ext. intros i Hi. apply Nat.ltb_lt in Hi. rewrite Hi. reflexivity. }
  rewrite <- rsum_plus. apply rsum_ext. intros i Hi. rewrite (fdiff_val q i v h Hq Hi). ring.
Qed.

(** ---- energy derivative *)

Lemma eta_E_derive : forall i v0 E c, is_derive (fun E => eta i ((v0 - E) * c)) E (- c * eta (S i) ((v0 - E) * c) / 2).
Proof.
  intros i v0 E c. evar_last.
  - apply (is_derive_comp (eta i) (fun E => (v0 - E) * c)); [apply eta_derive|]. auto_derive; [exact I|reflexivity].
  - unfold scal; simpl; unfold mult; simpl. field.
Qed.
Lemma rsum_derive : forall n (f : nat -> R -> R) (g : nat -> R) x, (forall i, (i < n)%nat -> is_derive (f i) x (g i)) ->
  is_derive (fun y => rsum n (fun i => f i y)) x (rsum n g).
Proof.
  induction n; intros f g x H; cbn [rsum].
  - auto_derive; [exact I|reflexivity].
  - apply (is_derive_plus (fun y => rsum n (fun i => f i y)) (f n)); [apply IHn; intros; apply H; lia|apply H; lia].
Qed.
Lemma base_E_derive : forall v0 x E,
  is_derive (fun E => (v0 - E) * x * eta 1 ((v0 - E) * (x * x))) E
    (- x * eta 1 ((v0 - E) * (x * x)) - (v0 - E) * (x * x) * x * eta 2 ((v0 - E) * (x * x)) / 2).
Proof.
  intros. evar_last.
  - apply (is_derive_mult (fun E => (v0 - E) * x) (fun E => eta 1 ((v0 - E) * (x * x)))); [|apply eta_E_derive|intros; apply Rmult_comm].
    auto_derive; [exact I|reflexivity].
  - unfold plus, mult; simpl. field.
Qed.
(** sums of coefficients times eta, with the base term: derivative = code's dt minus the dropped term *)
Lemma sum_E_derive : forall n (q : nat) (c : nat -> R) v0 x E,
  is_derive (fun E => (if (q =? 2)%nat then (v0 - E) * x * eta 1 ((v0 - E) * (x * x)) else 0)
                      + rsum (S n) (fun i => c i * eta i ((v0 - E) * (x * x)))) E
    (((if (q =? 2)%nat then - x * eta 1 ((v0 - E) * (x * x)) - (v0 - E) * (x * x) * x * eta 2 ((v0 - E) * (x * x)) / 2 else 0)
      + rsum n (fun i => c i * (- (x * x) * eta (S i) ((v0 - E) * (x * x)) / 2)))
     - c n * (x * x * eta (S n) ((v0 - E) * (x * x)) / 2)).
Proof.
  intros. evar_last.
  - apply (is_derive_plus (fun E => if (q =? 2)%nat then (v0 - E) * x * eta 1 ((v0 - E) * (x * x)) else 0)
      (fun E => rsum (S n) (fun i => c i * eta i ((v0 - E) * (x * x))))).
    + instantiate (1 := if (q =? 2)%nat then - x * eta 1 ((v0 - E) * (x * x)) - (v0 - E) * (x * x) * x * eta 2 ((v0 - E) * (x * x)) / 2 else 0).
      destruct (q =? 2)%nat; [apply base_E_derive|]. auto_derive; auto.
    + apply (rsum_derive (S n) (fun i E => c i * eta i ((v0 - E) * (x * x))) (fun i => c i * (- (x * x) * eta (S i) ((v0 - E) * (x * x)) / 2))).
      intros i Hi. apply (is_derive_scal (fun E => eta i ((v0 - E) * (x * x)))). apply eta_E_derive.
  - match goal with |- plus ?a ?b = _ => change (plus a b) with (a + b) end. cbn [rsum]. destruct (q =? 2)%nat; field.
Qed.

Lemma step_delta_dval : forall v h E x q, (q < 4)%nat ->
  dent q (step_delta eta_exact v h E x)
  = (if (q =? 2)%nat then - x * eta 1 ((v 0%nat - E) * (x * x)) - (v 0%nat - E) * (x * x) * x * eta 2 ((v 0%nat - E) * (x * x)) / 2 else 0)
    + rsum 8 (fun i => horner (tcoeff v h q i) x HMAX_delta * (- (x * x) * eta (S i) ((v 0%nat - E) * (x * x)) / 2)).
Proof.
  intros v h E x q Hq.
  assert (forall q base, acc_eta (ETA_delta - 1) base (fun i => horner (tcoeff v h q i) x HMAX_delta)
     (fun i => - (x * x) * nth (i + 1) (eta_exact ETA_delta ((v 0%nat - E) * (x * x))) 0 / 2)
     = base + rsum 8 (fun i => horner (tcoeff v h q i) x HMAX_delta * (- (x * x) * eta (S i) ((v 0%nat - E) * (x * x)) / 2))) as H.
  { intros q0 base. rewrite acc_eta_val. change (ETA_delta - 1)%nat with 8%nat. apply (f_equal (Rplus base)). apply rsum_ext. intros i Hi.
    rewrite eta_exact_nth by (unfold ETA_delta; lia). rewrite Nat.add_1_r. reflexivity. }
  unfold step_delta. destruct q as [|[|[|[|q]]]]; [| | | |lia]; cbn [dent d00 d01 d10 d11 Nat.eqb]; rewrite H.
  - reflexivity.
  - reflexivity.
  - rewrite !eta_exact_nth by (unfold ETA_delta; lia). reflexivity.
  - reflexivity.
Qed.
Lemma step_full_dval : forall v h E q, (q < 4)%nat ->
  dent q (step_full eta_exact v h E)
  = (if (q =? 2)%nat then - h * eta 1 ((v 0%nat - E) * (h * h)) - (v 0%nat - E) * (h * h) * h * eta 2 ((v 0%nat - E) * (h * h)) / 2 else 0)
    + rsum 9 (fun i => tcoeff_h v h q i * (- (h * h) * eta (S i) ((v 0%nat - E) * (h * h)) / 2)).
Proof.
  intros v h E q Hq.
  assert (forall q base, acc_eta (ETA_h - 1) base (tcoeff_h v h q)
     (fun i => - h * h * nth (i + 1) (eta_exact ETA_h ((v 0%nat - E) * h * h)) 0 / 2)
     = base + rsum 9 (fun i => tcoeff_h v h q i * (- (h * h) * eta (S i) ((v 0%nat - E) * (h * h)) / 2))) as H.
  { intros q0 base. rewrite acc_eta_val. change (ETA_h - 1)%nat with 9%nat. apply (f_equal (Rplus base)). apply rsum_ext. intros i Hi.
    rewrite eta_exact_nth by (unfold ETA_h; lia). rewrite Nat.add_1_r, (Rmult_assoc (v 0%nat - E)). field. }
  unfold step_full. destruct q as [|[|[|[|q]]]]; [| | | |lia]; cbn [dent d00 d01 d10 d11 Nat.eqb]; rewrite H.
  - reflexivity.
  - reflexivity.
  - rewrite !eta_exact_nth by (unfold ETA_h; lia). rewrite (Rmult_assoc (v 0%nat - E) h h). apply (f_equal (fun z => z + _)). field.
  - reflexivity.
Qed.

Theorem partial_dE : forall q, (q < 4)%nat -> forall v h E x,
  is_derive (fun E => tent q (step_delta eta_exact v h E x)) E
    (dent q (step_delta eta_exact v h E x)
     - horner (tcoeff v h q 8) x HMAX_delta * (x * x * eta 9 ((v 0%nat - E) * (x * x)) / 2)).
Proof.
  intros q Hq v h E x. eapply is_derive_ext; [intro; symmetry; apply step_delta_val2, Hq|].
  rewrite step_delta_dval by exact Hq. apply (sum_E_derive 8 q (fun i => horner (tcoeff v h q i) x HMAX_delta)).
Qed.
Theorem full_dE : forall q, (q < 4)%nat -> forall v h E,
  is_derive (fun E => tent q (step_full eta_exact v h E)) E
    (dent q (step_full eta_exact v h E) - tcoeff_h v h q 9 * (h * h * eta 10 ((v 0%nat - E) * (h * h)) / 2)).
Proof.
  intros q Hq v h E. eapply is_derive_ext; [intro; symmetry; apply step_full_val, Hq|].
  rewrite step_full_dval by exact Hq. apply (sum_E_derive 9 q (tcoeff_h v h q)).
Qed.

(** the dropped coefficients are of high order *)
Definition min_deg_ok (n : nat) (l : list term) : bool := forallb (fun t => (n <=? tdeg t)%nat) l.
Lemma drop_check : forallb (fun q => min_deg_ok 15 (nth 8 (acol q) []) && min_deg_ok 17 (hcol q 9)) (seq 0 4) = true.
Proof. vm_cast_no_check (eq_refl true). Qed.
Definition drop_partial (q : nat) : list monomial := map to_mono (nth 8 (acol q) []).
Definition drop_full (q : nat) : list monomial := map to_mono (hcol q 9).
Lemma drop_order : forall q m, (q < 4)%nat ->
  (In m (drop_partial q) -> (15 <= order m)%nat) /\ (In m (drop_full q) -> (17 <= order m)%nat).
Proof.
  intros q m Hq. pose proof drop_check as H. rewrite forallb_forall in H. specialize (H q ltac:(apply in_seq; lia)).
  apply andb_prop in H. destruct H as [H1 H2]. unfold min_deg_ok in *. rewrite forallb_forall in H1, H2.
  split; intro Hm; apply in_map_iff in Hm; destruct Hm as (t & <- & Ht); rewrite to_mono_order.
  - apply Nat.leb_le, H1, Ht.
  - apply Nat.leb_le, H2, Ht.
Qed.
Lemma drop_val : forall q v h x, 
  horner (tcoeff v h q 8) x HMAX_delta = poly_val v h x (drop_partial q) /\ tcoeff_h v h q 9 = poly_val v h x (drop_full q).
Proof.
  intros. pose proof DD_nz as HD. unfold drop_partial, drop_full.
  split; apply (Rmult_eq_reg_l (IZR DD)); auto; rewrite to_mono_val.
  - rewrite acol_val by lia. reflexivity.
  - rewrite hcol_val by lia. reflexivity.
Qed.
