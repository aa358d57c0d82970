(** Coupled problems: residual, derivative row, full step, energy derivative, constant potentials. *)
From Coq Require Import String QArith Qreals Reals ZArith Lra Lia.
From Coquelicot Require Import Coquelicot.
From Coq Require Import List Bool.
From Verif Require Import Base S_Eta P_Eta S_Poly S_Legendre S_Formulas S_Coupled M_Sectors M_TableData M_Core M_Formulas M_CoupledData M_Coupled
  P_Poly P_Terms P_Terms2 P_Formulas P_Formulas2 P_Formulas3 P_Formulas4 P_WTerms P_Accuracy P_Coupled P_Coupled2.
Import ListNotations.
Open Scope R_scope.

Definition to_wmono (t : term) : wmonomial := let (c, a, b, l) := t in mkWMono (IZR c / IZR DW) a b l.
Definition wpolys (l : list (list term)) (i : nat) : list wmonomial := map to_wmono (nth i l []).
Lemma to_wmono_val : forall n vs h x l r c,
  wpoly_val n vs h x (map to_wmono l) r c = / IZR DW * wlev (fun w => word_val n vs w r c) h x l.
Proof.
  intros n vs h x l r c. induction l as [|[k a b w] l IH]; [simpl; ring|]. cbn [map wpoly_val fold_right].
  fold (wpoly_val n vs h x (map to_wmono l) r c). rewrite IH, wlev_cons. unfold wmono_val. cbn [to_wmono w_coef w_delta w_h w_word weval].
  unfold Rdiv. ring.
Qed.
(** monomials of order >= hi, or >= lo with a coefficient below 10^-10 (the tables are decimal approximations) *)
Definition wok (hi lo : nat) (t : term) : bool :=
  (hi <=? tdeg t)%nat || ((lo <=? tdeg t)%nat && (Z.abs (tcoef t) <=? 10 ^ 6)%Z).
Definition small_or (hi lo : nat) (m : wmonomial) : Prop :=
  (hi <= worder m)%nat \/ ((lo <= worder m)%nat /\ Rabs (w_coef m) <= / 10 ^ 10).
Lemma wok_mono : forall hi lo t, wok hi lo t = true -> small_or hi lo (to_wmono t).
Proof.
  intros hi lo [c a b l] H. unfold wok in H. unfold small_or, worder. cbn [to_wmono w_delta w_h w_coef tdeg tcoef] in *.
  apply orb_prop in H. destruct H as [H|H]; [left; apply Nat.leb_le, H|right].
  apply andb_prop in H. destruct H as [H1 H2]. split; [apply Nat.leb_le, H1|]. apply Z.leb_le in H2.
  unfold Rdiv. rewrite Rabs_mult, <- abs_IZR. apply IZR_le in H2. rewrite DW_val.
  assert (0 < / 10 ^ 16) by (apply Rinv_0_lt_compat, pow_lt; lra).
  rewrite (Rabs_pos_eq (/ 10 ^ 16)) by lra.
  replace (/ 10 ^ 10) with (10 ^ 6 * / 10 ^ 16) by (field).
  apply Rmult_le_compat_r; [lra|]. rewrite (pow_IZR 10 6). exact H2.
Qed.
Lemma wpolys_ok : forall hi lo l, forallb (forallb (wok hi lo)) l = true -> forall i m, In m (wpolys l i) -> small_or hi lo m.
Proof.
  intros hi lo l H i m Hm. unfold wpolys in Hm. apply in_map_iff in Hm. destruct Hm as (t & <- & Ht). apply wok_mono.
  rewrite forallb_forall in H. destruct (Nat.lt_ge_cases i (List.length l)) as [Hi|Hi].
  - specialize (H _ (nth_In l [] Hi)). rewrite forallb_forall in H. apply H, Ht.
  - rewrite nth_overflow in Ht by exact Hi. destruct Ht.
Qed.
Lemma wy_polys : forall n vs h w l x r c N, List.length l = N ->
  / IZR DW * wy (fun k => word_val n vs k r c) h w 0 l x = rsum N (fun i => wpoly_val n vs h x (wpolys l i) r c * eta i (w * (x * x))).
Proof.
  intros n vs h w l x r c N Hl. rewrite wy_rsum, Hl, <- rsum_scal. apply rsum_ext. intros i Hi. unfold wpolys. rewrite to_wmono_val. cbn [Nat.add]. ring.
Qed.

(** ---- computed facts about the tables *)
Definition wres (c : nat) : list (list term) := wresid (wX 8) 0 [] (wcol c).
Definition wdr (c : nat) : list (list term) := wder 0 [] (wcol c) (wcol (c + 2)).
Definition wfd (q : nat) : list (list term) :=
  map (fun i => wnorm (nth i (wcolh q) [] ++ map (tsc (-1)) (map tcollapse (nth i (wcol q) [])))) (seq 0 6).
Lemma wcheck_B : forallb (fun c => wB_oks 0 (wcol c)) [0; 1]%nat = true. Proof. vm_cast_no_check (eq_refl true). Qed.
Lemma wcheck_d : forallb (fun c => wder_oks 0 (wcol c) (wcol (c + 2))) [0; 1]%nat = true. Proof. vm_cast_no_check (eq_refl true). Qed.
Lemma wcheck_first : hd [] (wcol 0) = [Te DW 0 0 []] /\ hd [] (wcol 1) = []. Proof. split; vm_compute; reflexivity. Qed.
Lemma wcheck_res : forallb (fun c => forallb (forallb (wok 7 3)) (wres c)) [0; 1]%nat = true. Proof. vm_cast_no_check (eq_refl true). Qed.
Lemma wcheck_der : forallb (fun c => forallb (forallb (wok 8 4)) (wdr c)) [0; 1]%nat = true. Proof. vm_cast_no_check (eq_refl true). Qed.
Lemma wcheck_full : forallb (fun q => forallb (forallb (wok 9 6)) (wfd q)) (seq 0 4) = true. Proof. vm_cast_no_check (eq_refl true). Qed.
Lemma wcheck_drop : forallb (fun q => forallb (wok 7 7) (nth 4 (wcol q) []) && forallb (wok 9 9) (nth 5 (wcolh q) [])) (seq 0 4) = true.
Proof. vm_cast_no_check (eq_refl true). Qed.

Lemma wder_length : forall l m i c, List.length l = List.length m -> List.length (wder i c l m) = List.length l.
Proof. induction l; intros [|d m] i c H; cbn [wder List.length] in *; try lia. rewrite IHl; lia. Qed.

Section Sector.
Variables (n : nat) (s : csector) (E : R).
Notation vs := (cs_vs s). Notation h := (cs_h s).
Notation U q r c := (fun x => cb (cblocks_delta eta_exact n s E x) q r c).

Lemma wfirst_val : forall q r c x, (q < 2)%nat -> wlev (fun k => word_val n vs k r c) h x (hd [] (wcol q))
  = if ((q =? 0) && (r =? c))%nat then IZR DW else 0.
Proof.
  intros [|[|q]] r c x Hq; [| |lia]; destruct wcheck_first as [E0 E1]; [rewrite E0|rewrite E1]; [|reflexivity].
  rewrite wlev_cons. cbn [weval pow word_val wlev fold_right Nat.eqb andb]. destruct (r =? c)%nat; ring.
Qed.

Theorem ccolumn_residual : forall q, (q < 2)%nat -> h <> 0 -> diagonal n (vs 0%nat) ->
  forall r c, (r < n)%nat -> (c < n)%nat -> exists y1 y2 : R -> R, forall x,
    is_derive (U q r c) x (y1 x) /\ is_derive y1 x (y2 x) /\
    y2 x = rsum n (fun j => mat_potential 8 vs h x r j * U q j c x) - E * U q r c x
           + rsum 5 (fun i => wpoly_val n vs h x (wpolys (wres q) i) r c * eta i ((vs 0%nat c c - E) * (x * x))).
Proof.
  intros q Hq Hh Hd r c Hr Hc. set (w := vs 0%nat c c - E). set (W := fun r k => word_val n vs k r c).
  exists (fun x => / IZR DW * wy1 (W r) h w 0 (wcol q) x), (fun x => / IZR DW * wy2 (W r) h w 0 (wcol q) x). intro x.
  assert (forall r x, (r < n)%nat -> cb (cblocks_delta eta_exact n s E x) q r c = / IZR DW * wy (W r) h w 0 (wcol q) x) as Ht.
  { intros r0 z Hr0. rewrite cdelta_val by assumption. unfold cbase. destruct (Nat.eqb_spec q 2); [lia|]. cbn [andb]. fold w. unfold W. ring. }
  split; [|split].
  - apply (is_derive_ext (fun x => / IZR DW * wy (W r) h w 0 (wcol q) x)); [intro; symmetry; apply Ht; exact Hr|].
    apply (is_derive_scal (wy (W r) h w 0 (wcol q))). apply wy_derive.
  - apply (is_derive_scal (wy1 (W r) h w 0 (wcol q))). apply wy1_derive.
  - rewrite <- (wy_polys n vs h w (wres q) x r c 5) by (unfold wres; rewrite wresid_length; apply wcol_length).
    rewrite (rsum_ext n (fun j => mat_potential 8 vs h x r j * cb (cblocks_delta eta_exact n s E x) q j c)
      (fun j => / IZR DW * (mat_potential 8 vs h x r j * wy (W j) h w 0 (wcol q) x))).
    2: { intros j Hj. rewrite Ht by exact Hj. ring. }
    rewrite rsum_scal, Ht by exact Hr.
    assert (wy (W r) h w 0 (map (wX 8) (wcol q)) x = rsum n (fun j => mat_potential 8 vs h x r j * wy (W j) h w 0 (wcol q) x) - vs 0%nat c c * wy (W r) h w 0 (wcol q) x) as EX.
    { rewrite !wy_rsum, map_length.
      rewrite (rsum_ext n _ (fun j => rsum (List.length (wcol q)) (fun i => mat_potential 8 vs h x r j * wlev (W j) h x (nth i (wcol q) []) * eta (0 + i) (w * (x * x))))).
      2: { intros j Hj. rewrite wy_rsum, <- rsum_scal. apply rsum_ext. intros. ring. }
      rewrite rsum_swap. rewrite <- rsum_scal. unfold Rminus.
      assert (forall m f, - rsum m f = rsum m (fun k => - f k)) as Hopp by (induction m; intro f; cbn [rsum]; [ring|rewrite <- IHm; ring]).
      rewrite Hopp, <- rsum_plus. apply rsum_ext. intros i Hi.
      rewrite (nth_indep _ [] (wX 8 [])) by (rewrite map_length; exact Hi). rewrite map_nth. unfold W at 1.
      rewrite wX_val by (auto; lia).
      replace (rsum n (fun k => mat_potential 8 vs h x r k * wlev (W k) h x (nth i (wcol q) []) * eta (0 + i) (w * (x * x))))
        with (eta (0 + i) (w * (x * x)) * rsum n (fun k => mat_potential 8 vs h x r k * wlev (W k) h x (nth i (wcol q) []))).
      2: { rewrite <- rsum_scal. apply rsum_ext. intros. ring. }
      unfold W. cbv beta.
      match goal with |- (?a - ?b * ?l) * ?e = ?e * ?a' + _ => change a' with a; generalize a l e; intros; unfold w; ring end. }
    pose proof (wresid_val (W r) h w (wX 8) (wcol q) 0 [] x) as HR.
    assert (wy2 (W r) h w 0 (wcol q) x - w * wy (W r) h w 0 (wcol q) x - wy (W r) h w 0 (map (wX 8) (wcol q)) x
            = wy (W r) h w 0 (wres q) x) as Hv.
    { unfold wres. rewrite HR.
      - ring.
      - pose proof wcheck_B as HB. rewrite forallb_forall in HB. apply HB. destruct q as [|[|q]]; [left|right; left|lia]; reflexivity.
      - pose proof wcheck_first as [F0 F1]. pose proof (wcol_length q) as HL. clear - HL F0 F1 Hq.
        destruct q as [|[|q]]; [| |lia].
        + destruct (wcol 0) as [|a l]; [discriminate|]. cbn [hd] in F0. rewrite F0. reflexivity.
        + destruct (wcol 1) as [|a l]; [discriminate|]. cbn [hd] in F1. rewrite F1. reflexivity.
      - reflexivity. }
    rewrite EX in Hv. fold (W r).
    replace (wy2 (W r) h w 0 (wcol q) x) with (w * wy (W r) h w 0 (wcol q) x + (rsum n (fun j => mat_potential 8 vs h x r j * wy (W j) h w 0 (wcol q) x) - vs 0%nat c c * wy (W r) h w 0 (wcol q) x) + wy (W r) h w 0 (wres q) x) by (rewrite <- Hv; ring).
    generalize (rsum n (fun j => mat_potential 8 vs h x r j * wy (W j) h w 0 (wcol q) x)) (wy (W r) h w 0 (wcol q) x) (wy (W r) h w 0 (wres q) x).
    intros. unfold w. ring.
Qed.

Theorem cderivative_row : forall q, (q < 2)%nat -> forall r c x, (r < n)%nat -> (c < n)%nat ->
  is_derive (U q r c) x
    (U (q + 2)%nat r c x + rsum 5 (fun i => wpoly_val n vs h x (wpolys (wdr q) i) r c * eta i ((vs 0%nat c c - E) * (x * x)))).
Proof.
  intros q Hq r c x Hr Hc. set (w := vs 0%nat c c - E). set (W := fun k => word_val n vs k r c).
  apply (is_derive_ext (fun x => / IZR DW * wy W h w 0 (wcol q) x)).
  { intro z. rewrite cdelta_val by assumption. unfold cbase. destruct (Nat.eqb_spec q 2); [lia|]. cbn [andb]. rewrite Rplus_0_l. reflexivity. }
  evar_last; [apply (is_derive_scal (wy W h w 0 (wcol q))); apply wy_derive|].
  rewrite <- (wy_polys n vs h w (wdr q) x r c 5) by (unfold wdr; rewrite wder_length by (rewrite !wcol_length; reflexivity); apply wcol_length).
  rewrite cdelta_val by assumption. fold w. fold W.
  pose proof wcheck_d as Hk. rewrite forallb_forall in Hk. specialize (Hk q ltac:(destruct q as [|[|q]]; [left|right; left|lia]; reflexivity)).
  pose proof (wfirst_val q r c x Hq) as Hf. pose proof (wcol_length q) as HL. unfold wdr.
  destruct (wcol q) as [|a l]; [discriminate|]. cbn [hd] in Hf.
  pose proof (wder_val0 W h w a l (wcol (q + 2)) x Hk) as Hdv. fold W in Hf. rewrite Hf in Hdv.
  set (Y1 := wy1 W h w 0 (a :: l) x) in *. set (Y2 := wy W h w 0 (wcol (q + 2)) x) in *. set (Y3 := wy W h w 0 (wder 0 [] (a :: l) (wcol (q + 2))) x) in *.
  replace Y1 with (Y2 + (if ((q =? 0) && (r =? c))%nat then IZR DW else 0) * (w * x * eta 1 (w * (x * x))) + Y3) by lra.
  pose proof DW_nz. unfold cbase. fold w. destruct q as [|[|q]]; [| |lia]; cbn [Nat.eqb Nat.add andb]; [|ring].
  destruct (r =? c)%nat; field; assumption.
Qed.

Theorem cfull_vs_partial : forall q, (q < 4)%nat -> forall r c, (r < n)%nat -> (c < n)%nat ->
  cb (cblocks_full eta_exact n s E) q r c
  = U q r c h + rsum 6 (fun i => wpoly_val n vs h h (wpolys (wfd q) i) r c * eta i ((vs 0%nat c c - E) * (h * h))).
Proof.
  intros q Hq r c Hr Hc. rewrite cfull_val, cdelta_val by assumption. rewrite Rplus_assoc. f_equal. set (w := vs 0%nat c c - E).
  assert (wy (fun l => word_val n vs l r c) h w 0 (wcol q) h = rsum 6 (fun i => wlev (fun l => word_val n vs l r c) h h (nth i (wcol q) []) * eta i (w * (h * h)))) as E6.
  { rewrite wy_rsum, wcol_length. change (rsum 6 ?f) with (rsum 5 f + f 5%nat). cbv beta. rewrite (nth_overflow (wcol q)) by (rewrite wcol_length; lia).
    change (wlev (fun l => word_val n vs l r c) h h []) with 0. rewrite Rmult_0_l, Rplus_0_r. apply rsum_ext. reflexivity. }
  rewrite E6, wy_rsum, wcolh_length, <- !rsum_scal, <- rsum_plus. apply rsum_ext. intros i Hi. cbn [Nat.add].
  assert (nth i (wfd q) [] = wnorm (nth i (wcolh q) [] ++ map (tsc (-1)) (map tcollapse (nth i (wcol q) [])))) as Ew.
  { unfold wfd. set (f := fun i => wnorm (nth i (wcolh q) [] ++ map (tsc (-1)) (map tcollapse (nth i (wcol q) [])))).
    rewrite (nth_indep (map f (seq 0 6)) [] (f 0%nat)) by (rewrite map_length, seq_length; exact Hi). rewrite map_nth, seq_nth by exact Hi. reflexivity. }
  unfold wpolys. rewrite Ew.
  rewrite to_wmono_val, wnorm_val, wlev_app, wlev_tsc, <- wcollapse_val. ring.
Qed.

(** identity for delta = 0: read off the value at 0 *)
Definition at0 (t : term) : bool := let (_, a, _, _) := t in (a =? 0)%nat.
Definition w0_ok (q i : nat) : bool :=
  match wnorm (filter at0 (nth i (wcol q) [])) with
  | [] => negb ((i =? 0) && ((q =? 0) || (q =? 3)))%nat
  | [Te k 0 0 []] => ((i =? 0) && ((q =? 0) || (q =? 3)))%nat && (k =? DW)%Z
  | _ => false
  end.
Lemma wcheck_0 : forallb (fun q => forallb (w0_ok q) (seq 0 5)) (seq 0 4) = true. Proof. vm_cast_no_check (eq_refl true). Qed.
Lemma wlev_at0 : forall W l, wlev W h 0 l = wlev W h 0 (filter at0 l).
Proof.
  intros W l. induction l as [|[k a b w] l IH]; [reflexivity|]. cbn [filter at0]. destruct a as [|a]; cbn [Nat.eqb]; rewrite !wlev_cons, IH; [reflexivity|].
  cbn [weval pow]. ring.
Qed.
Theorem cinitial : forall q, (q < 4)%nat -> forall r c, (r < n)%nat -> (c < n)%nat ->
  U q r c 0 = if ((q =? 0) || (q =? 3))%nat then (if (r =? c)%nat then 1 else 0) else 0.
Proof.
  intros q Hq r c Hr Hc. cbv beta. rewrite cdelta_val by assumption. unfold cbase. rewrite wy_rsum, wcol_length.
  set (W := fun l => word_val n vs l r c).
  assert (forall i, (i < 5)%nat -> wlev W h 0 (nth i (wcol q) []) = if ((i =? 0) && ((q =? 0) || (q =? 3)))%nat then IZR DW * (if (r =? c)%nat then 1 else 0) else 0) as H0.
  { intros i Hi. rewrite wlev_at0. rewrite <- wnorm_val. pose proof wcheck_0 as HC. rewrite forallb_forall in HC. specialize (HC q ltac:(apply in_seq; lia)).
    rewrite forallb_forall in HC. specialize (HC i ltac:(apply in_seq; lia)). unfold w0_ok in HC.
    destruct (wnorm (filter at0 (nth i (wcol q) []))) as [|[k a b w] rest].
    - destruct ((i =? 0) && ((q =? 0) || (q =? 3)))%nat; [discriminate|reflexivity].
    - destruct a; [|discriminate]. destruct b; [|discriminate]. destruct w; [|discriminate]. destruct rest; [|discriminate].
      apply andb_prop in HC. destruct HC as [HC1 HC2]. rewrite HC1. apply Z.eqb_eq in HC2. subst k. rewrite wlev_cons. cbn [weval pow wlev fold_right]. unfold W. cbn [word_val]. ring. }
  rewrite (rsum_ext 5 _ (fun i => (if ((i =? 0) && ((q =? 0) || (q =? 3)))%nat then IZR DW * (if (r =? c)%nat then 1 else 0) else 0) * eta i ((vs 0%nat c c - E) * (0 * 0)))).
  2: { intros i Hi. rewrite H0 by exact Hi. reflexivity. }
  rewrite (rsum_only 5 0); [|lia|intros j Hj Hne; destruct j; [congruence|]; cbn [Nat.eqb andb]; ring].
  cbn [Nat.eqb andb]. replace ((vs 0%nat c c - E) * (0 * 0)) with 0 by ring.
  assert (eta 0 0 = 1) as -> by (rewrite eta_at_0; simpl; field).
  pose proof DW_nz. destruct ((q =? 0) || (q =? 3))%nat, ((q =? 2) && (r =? c))%nat, (r =? c)%nat; field; assumption.
Qed.

(** ---- constant potential *)
Definition zero_word (t : term) : bool := let (_, _, _, l) := t in forallb (Nat.eqb 0) l.
Definition small_word (t : term) : bool := let (_, _, _, l) := t in forallb (fun k => (k <=? 8)%nat) l.
Definition cw_ok (full : bool) (q i : nat) (l : list term) : bool :=
  forallb small_word l &&
  match wnorm (filter zero_word l) with
  | [] => negb (((i =? 0) && ((q =? 0) || (q =? 3))) || ((i =? 1) && (q =? 1)))%nat
  | [Te k a b []] => (k =? DW)%Z &&
      ((((i =? 0) && ((q =? 0) || (q =? 3))) && (a =? 0) && (b =? 0)) ||
       (((i =? 1) && (q =? 1)) && (a =? (if full then 0 else 1)) && (b =? (if full then 1 else 0))))%nat
  | _ => false
  end.
Lemma wcheck_c : forallb (fun q => forallb (fun i => cw_ok false q i (nth i (wcol q) [])) (seq 0 5) && forallb (fun i => cw_ok true q i (nth i (wcolh q) [])) (seq 0 6)) (seq 0 4) = true.
Proof. vm_cast_no_check (eq_refl true). Qed.
Hypothesis Hconst : forall k r c, (1 <= k <= 8)%nat -> (r < n)%nat -> (c < n)%nat -> vs k r c = 0.
Lemma word_const : forall l r c, (r < n)%nat -> (c < n)%nat -> forallb (fun k => (k <=? 8)%nat) l = true -> forallb (Nat.eqb 0) l = false -> word_val n vs l r c = 0.
Proof.
  induction l as [|k l IH]; intros r c Hr Hc H8 H0; [discriminate|]. cbn [forallb] in *. apply andb_prop in H8. destruct H8 as [Hk H8]. apply Nat.leb_le in Hk.
  cbn [word_val]. rewrite (rsum_ext n _ (fun _ => 0)); [apply rsum_zero|]. intros j Hj. destruct k as [|k].
  - cbn [Nat.eqb andb] in H0. rewrite IH by auto. ring.
  - rewrite Hconst by (auto; lia). ring.
Qed.
Lemma wlev_const : forall r c x l, (r < n)%nat -> (c < n)%nat -> forallb small_word l = true ->
  wlev (fun w => word_val n vs w r c) h x l = wlev (fun w => word_val n vs w r c) h x (filter zero_word l).
Proof.
  intros r c x l Hr Hc. induction l as [|[k a b w] l IH]; intro Hs; [reflexivity|]. cbn [forallb] in Hs. apply andb_prop in Hs. destruct Hs as [H1 H2].
  cbn [filter]. destruct (zero_word (Te k a b w)) eqn:Ez; rewrite !wlev_cons, (IH H2); [reflexivity|]. cbn [weval zero_word small_word] in *.
  rewrite (word_const w) by auto. ring.
Qed.
Lemma cw_val : forall full q i l r c x, (r < n)%nat -> (c < n)%nat -> cw_ok full q i l = true -> 
  wlev (fun w => word_val n vs w r c) h x l
  = IZR DW * (if (r =? c)%nat then (if ((i =? 0) && ((q =? 0) || (q =? 3)))%nat then 1 else if ((i =? 1) && (q =? 1))%nat then (if full then h else x) else 0) else 0).
Proof.
  intros full q i l r c x Hr Hc H. unfold cw_ok in H. apply andb_prop in H. destruct H as [H1 H2]. rewrite wlev_const, <- wnorm_val by auto.
  destruct (wnorm (filter zero_word l)) as [|[k a b w] rest].
  - apply negb_true_iff, orb_false_iff in H2. destruct H2 as [-> ->]. simpl. destruct (r =? c)%nat; ring.
  - destruct w; [|discriminate]. destruct rest; [|discriminate]. apply andb_prop in H2. destruct H2 as [Hk H2]. apply Z.eqb_eq in Hk. subst k.
    rewrite wlev_cons. cbn [weval wlev fold_right word_val]. apply orb_prop in H2. destruct H2 as [H2|H2]; apply andb_prop in H2; destruct H2 as [H2 Hb]; apply andb_prop in H2; destruct H2 as [H2 Ha];
      apply Nat.eqb_eq in Ha, Hb; subst a b.
    + rewrite H2. cbn [pow]. destruct (r =? c)%nat; ring.
    + rewrite H2. apply andb_prop in H2. destruct H2 as [Hi Hq]. apply Nat.eqb_eq in Hi, Hq. subst i q. cbn [Nat.eqb andb orb]. destruct full, (r =? c)%nat; cbn [pow]; ring.
Qed.
Definition cexact (q : nat) (w x : R) : R :=
  match q with 0%nat | 3%nat => eta 0 (w * (x * x)) | 1%nat => x * eta 1 (w * (x * x)) | _ => w * x * eta 1 (w * (x * x)) end.
Theorem cconstant : forall q, (q < 4)%nat -> forall r c x, (r < n)%nat -> (c < n)%nat ->
  cb (cblocks_delta eta_exact n s E x) q r c = (if (r =? c)%nat then cexact q (vs 0%nat c c - E) x else 0) /\
  cb (cblocks_full eta_exact n s E) q r c = (if (r =? c)%nat then cexact q (vs 0%nat c c - E) h else 0).
Proof.
  intros q Hq r c x Hr Hc. pose proof wcheck_c as HC. rewrite forallb_forall in HC. specialize (HC q ltac:(apply in_seq; lia)).
  apply andb_prop in HC. destruct HC as [H1 H2]. rewrite forallb_forall in H1, H2. pose proof DW_nz.
  rewrite cdelta_val, cfull_val by assumption. rewrite !wy_rsum, wcol_length, wcolh_length. unfold cbase. set (w := vs 0%nat c c - E).
  split.
  - rewrite (rsum_ext 5 _ (fun i => IZR DW * (if (r =? c)%nat then (if ((i =? 0) && ((q =? 0) || (q =? 3)))%nat then 1 else if ((i =? 1) && (q =? 1))%nat then x else 0) else 0) * eta (0 + i) (w * (x * x)))).
    2: { intros i Hi. rewrite (cw_val false q i _ r c x Hr Hc) by (apply H1, in_seq; lia). reflexivity. }
    destruct q as [|[|[|[|q]]]]; [| | | |lia]; cbn [rsum Nat.eqb andb orb Nat.add cexact]; destruct (r =? c)%nat; field; assumption.
  - rewrite (rsum_ext 6 _ (fun i => IZR DW * (if (r =? c)%nat then (if ((i =? 0) && ((q =? 0) || (q =? 3)))%nat then 1 else if ((i =? 1) && (q =? 1))%nat then h else 0) else 0) * eta (0 + i) (w * (h * h)))).
    2: { intros i Hi. rewrite (cw_val true q i _ r c h Hr Hc) by (apply H2, in_seq; lia). reflexivity. }
    destruct q as [|[|[|[|q]]]]; [| | | |lia]; cbn [rsum Nat.eqb andb orb Nat.add cexact]; destruct (r =? c)%nat; field; assumption.
Qed.
End Sector.

(** ---- derivative with respect to the energy *)
Definition wdrop (q : nat) : list wmonomial := map to_wmono (nth 4 (wcol q) []).
Definition wdroph (q : nat) : list wmonomial := map to_wmono (nth 5 (wcolh q) []).
Lemma wdrop_order : forall q m, (q < 4)%nat -> (In m (wdrop q) -> (7 <= worder m)%nat) /\ (In m (wdroph q) -> (9 <= worder m)%nat).
Proof.
  intros q m Hq. pose proof wcheck_drop as H. rewrite forallb_forall in H. specialize (H q ltac:(apply in_seq; lia)). apply andb_prop in H. destruct H as [H1 H2].
  rewrite forallb_forall in H1, H2. split; intro Hm; apply in_map_iff in Hm; destruct Hm as (t & <- & Ht).
  - specialize (H1 _ Ht). apply wok_mono in H1. destruct H1 as [H1|[H1 _]]; exact H1.
  - specialize (H2 _ Ht). apply wok_mono in H2. destruct H2 as [H2|[H2 _]]; exact H2.
Qed.
Section Energy.
Variables (n : nat) (s : csector) (r c : nat).
Hypothesis Hr : (r < n)%nat.
Hypothesis Hc : (c < n)%nat.
Notation vs := (cs_vs s). Notation h := (cs_h s). Notation w0 := (cs_vs s 0%nat c c).
Lemma cblocks_val : forall m coeff x E q, (2 <= m)%nat ->
  cb (blocksVEd eta_exact n m coeff x (fun c => (vs 0%nat c c - E) * x)) q r c
  = (if ((if (r =? c)%nat then q else 0%nat) =? 2)%nat then (w0 - E) * x * eta 1 ((w0 - E) * (x * x)) else 0)
    + rsum m (fun i => coeff q i r c * eta i ((w0 - E) * (x * x))).
Proof.
  intros m coeff x E q Hm. unfold blocksVEd. cbn [cb]. rewrite macc_val by exact Hc. f_equal.
  - destruct (Nat.eqb_spec q 2) as [->|Hq]; unfold mdiag, mzero.
    + destruct (r =? c)%nat eqn:Erc; cbn [Nat.eqb]; [|reflexivity]. apply Nat.eqb_eq in Erc. rewrite <- Erc.
      rewrite eta_exact_nth by lia. rewrite Rmult_assoc, (Rmult_comm (eta 1 _)). reflexivity.
    + destruct (r =? c)%nat; [destruct (Nat.eqb_spec q 2); [congruence|]|]; reflexivity.
  - apply rsum_ext. intros i Hi. rewrite eta_exact_nth by exact Hi. rewrite Rmult_assoc. reflexivity.
Qed.
Lemma cblocks_dval : forall m coeff x E q, (2 <= m)%nat ->
  cdb (blocksVEd eta_exact n (S m) coeff x (fun c => (vs 0%nat c c - E) * x)) q r c
  = (if ((if (r =? c)%nat then q else 0%nat) =? 2)%nat then - x * eta 1 ((w0 - E) * (x * x)) - (w0 - E) * (x * x) * x * eta 2 ((w0 - E) * (x * x)) / 2 else 0)
    + rsum m (fun i => coeff q i r c * (- (x * x) * eta (S i) ((w0 - E) * (x * x)) / 2)).
Proof.
  intros m coeff x E q Hm. unfold blocksVEd. cbn [cdb]. replace (S m - 1)%nat with m by lia. rewrite macc_val by exact Hc. f_equal.
  - destruct (Nat.eqb_spec q 2) as [->|Hq]; unfold mdiag, mzero.
    + destruct (r =? c)%nat eqn:Erc; cbn [Nat.eqb]; [|reflexivity]. apply Nat.eqb_eq in Erc. rewrite <- Erc.
      rewrite !eta_exact_nth by lia. rewrite !Rmult_assoc. field.
    + destruct (r =? c)%nat; [destruct (Nat.eqb_spec q 2); [congruence|]|]; reflexivity.
  - apply rsum_ext. intros i Hi. rewrite eta_exact_nth by lia. rewrite Rmult_assoc, Nat.add_1_r. field.
Qed.
Lemma cblocks_E : forall m coeff x E q, (2 <= m)%nat ->
  is_derive (fun E => cb (blocksVEd eta_exact n (S m) coeff x (fun c => (vs 0%nat c c - E) * x)) q r c) E
    (cdb (blocksVEd eta_exact n (S m) coeff x (fun c => (vs 0%nat c c - E) * x)) q r c
     - coeff q m r c * (x * x * eta (S m) ((w0 - E) * (x * x)) / 2)).
Proof.
  intros m coeff x E q Hm. rewrite cblocks_dval by exact Hm.
  apply (is_derive_ext (fun E => (if ((if (r =? c)%nat then q else 0%nat) =? 2)%nat then (w0 - E) * x * eta 1 ((w0 - E) * (x * x)) else 0)
    + rsum (S m) (fun i => coeff q i r c * eta i ((w0 - E) * (x * x))))); [intro t; symmetry; apply cblocks_val; lia|].
  apply (sum_E_derive m (if (r =? c)%nat then q else 0%nat) (fun i => coeff q i r c)).
Qed.
Theorem cpartial_E : forall q E x,
  is_derive (fun E => cb (cblocks_delta eta_exact n s E x) q r c) E
    (cdb (cblocks_delta eta_exact n s E x) q r c - wpoly_val n vs h x (wdrop q) r c * (x * x * eta 5 ((w0 - E) * (x * x)) / 2)).
Proof.
  intros q E x. unfold wdrop. rewrite to_wmono_val, wcol_val, <- Rmult_assoc, Rinv_l, Rmult_1_l by (try apply DW_nz; lia).
  apply (cblocks_E 4 (fun q i => mhorner (ctcoeff n vs h q i) x CHMAX_delta)). lia.
Qed.
Theorem cfull_E : forall q E,
  is_derive (fun E => cb (cblocks_full eta_exact n s E) q r c) E
    (cdb (cblocks_full eta_exact n s E) q r c - wpoly_val n vs h h (wdroph q) r c * (h * h * eta 6 ((w0 - E) * (h * h)) / 2)).
Proof.
  intros q E. unfold wdroph. rewrite to_wmono_val, wcolh_val, <- Rmult_assoc, Rinv_l, Rmult_1_l by (try apply DW_nz; lia).
  apply (cblocks_E 5 (fun q i => ctcoeff_h n vs h q i)). lia.
Qed.
End Energy.
