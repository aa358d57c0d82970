(** C89: changing the unit of length. *)
From Coq Require Import String ZArith QArith Reals List Bool Lia Lra.
From Verif Require Import Base M_Sectors S_Sectors M_Core M_TableData M_Eta M_Formulas P_Core2.
Import ListNotations.
Open Scope R_scope.

(** In a unit of length 1/u as large, positions are multiplied by u, the potential and the energy divided by u^2, and coefficient k of the
    potential, which is a potential per (length)^k, by u^(k+2). *)
Definition resize (u : R) (s : sec) : sec :=
  mkSector (u * smin s) (u * smax s) (sdir s) (map (fun k => nth k (spay s) 0 / u ^ (k + 2)) (seq 0 (length (spay s)))).
(** values stay, derivatives with respect to x are divided by u, derivatives with respect to E multiplied by u^2 *)
Definition resizeY (u : R) (y : Y) : Y := mkY (y0 y) (y1 y / u) (u ^ 2 * e0 y) (u * e1 y).
Definition resizeT (u : R) (t : Tm) : Tm :=
  mkT (t00 t) (u * t01 t) (t10 t / u) (t11 t) (u ^ 2 * d00 t) (u ^ 3 * d01 t) (u * d10 t) (u ^ 2 * d11 t).

(** ** Every term of the tables has the right dimension *)
Definition wt (l : list nat) : nat := fold_right (fun k acc => k + 2 + acc)%nat 0%nat l.
Definition cq (q : nat) : nat := match q with 1 => 3 | 2 => 1 | _ => 2 end%nat.
Fixpoint dim_entry (c n : nat) (e : hentry) : bool :=
  match e with [] => true | r :: e' => forallb (fun t : tterm => let (_, _, l) := t in (wt l + c =? n)%nat) r && dim_entry c (S n) e' end.
Lemma dim_delta : forallb (fun i => forallb (fun j => forallb (fun q => dim_entry (cq q) (j + 2) (tdelta_src i j q)) (seq 0 4)) (seq 0 17)) (seq 0 9) = true.
Proof. vm_compute. reflexivity. Qed.
Lemma dim_h : forallb (fun i => forallb (fun q => dim_entry (cq q) 2 (th_src i q)) (seq 0 4)) (seq 0 10) = true.
Proof. vm_compute. reflexivity. Qed.

Section Units.
Variable u : R.
Hypothesis Hu : 0 < u.
Variables v w : nat -> R.
Hypothesis Hw : forall k, (k <= 15)%nat -> w k = v k / u ^ (k + 2).
Definition low (r : list tterm) : bool := forallb (fun t : tterm => let (_, _, l) := t in forallb (fun k => (k <=? 15)%nat) l) r.
Lemma up k : 0 < u ^ k.
Proof using Hu. apply pow_lt, Hu. Qed.
Lemma un k : u ^ k <> 0.
Proof using Hu. pose proof (up k). lra. Qed.
Lemma vprod_units l : forallb (fun k => (k <=? 15)%nat) l = true -> vprod w l * u ^ wt l = vprod v l.
Proof using Hu Hw.
  induction l as [|k l IH]; [cbn; intros _; ring|]. cbn [forallb vprod wt fold_right]. fold (wt l). rewrite andb_true_iff. intros (K & L).
  apply Nat.leb_le in K. rewrite (Hw k K), <- (IH L). rewrite (pow_add u (k + 2) (wt l)). pose proof (un (k + 2)) as N. set (z := u ^ (k + 2)) in *. clearbody z. set (t := u ^ wt l). clearbody t. field. exact N.
Qed.
Lemma row_units c n r : low r = true -> forallb (fun t : tterm => let (_, _, l) := t in (wt l + c =? n)%nat) r = true -> row_val w r * u ^ n = row_val v r * u ^ c.
Proof using Hu Hw.
  unfold row_val, low. induction r as [|[nu de l] r IH]; [cbn; intros; ring|]. cbn [forallb fold_right]. rewrite !andb_true_iff. intros (K & L) (M & N).
  rewrite !Rmult_plus_distr_r, (IH L N). f_equal. apply Nat.eqb_eq in M. unfold tterm_val. rewrite <- M, pow_add, <- (vprod_units l K). ring.
Qed.
Lemma entry_units c h e : forallb low e = true -> forall n, dim_entry c n e = true -> entry_val w (u * h) e * u ^ n = entry_val v h e * u ^ c.
Proof using Hu Hw.
  induction e as [|r e IH]; intros L n D; [cbn; ring|]. cbn [forallb dim_entry entry_val] in *. apply andb_prop in L as (L1 & L2). apply andb_prop in D as (D1 & D2).
  pose proof (row_units c n r L1 D1) as A. pose proof (IH L2 (S n) D2) as B. cbn [pow] in B. rewrite !Rmult_plus_distr_r, A. f_equal.
  replace (u * h * entry_val w (u * h) e * u ^ n) with (h * (entry_val w (u * h) e * (u * u ^ n))) by ring. rewrite B. ring.
Qed.
Lemma low_delta : forallb (fun i => forallb (fun j => forallb (fun q => forallb low (tdelta_src i j q)) (seq 0 4)) (seq 0 17)) (seq 0 9) = true.
Proof using. vm_compute. reflexivity. Qed.
Lemma low_h : forallb (fun i => forallb (fun q => forallb low (th_src i q)) (seq 0 4)) (seq 0 10) = true.
Proof using. vm_compute. reflexivity. Qed.
Lemma pick f n i : forallb f (seq 0 n) = true -> (i < n)%nat -> f i = true.
Proof using. intros H L. rewrite forallb_forall in H. apply H, in_seq. lia. Qed.
Lemma tcoeff_units h q i j : (q < 4)%nat -> (i < 9)%nat -> (j < 17)%nat -> tcoeff w (u * h) q i j * u ^ (j + 2) = tcoeff v h q i j * u ^ cq q.
Proof using Hu Hw.
  intros Q I J. apply entry_units.
  - apply (pick (fun q => forallb low (tdelta_src i j q)) 4 q); [|exact Q]. apply (pick (fun j => forallb (fun q => forallb low (tdelta_src i j q)) (seq 0 4)) 17 j); [|exact J].
    apply (pick (fun i => forallb (fun j => forallb (fun q => forallb low (tdelta_src i j q)) (seq 0 4)) (seq 0 17)) 9 i); [exact low_delta|exact I].
  - apply (pick (fun q => dim_entry (cq q) (j + 2) (tdelta_src i j q)) 4 q); [|exact Q]. apply (pick (fun j => forallb (fun q => dim_entry (cq q) (j + 2) (tdelta_src i j q)) (seq 0 4)) 17 j); [|exact J].
    apply (pick (fun i => forallb (fun j => forallb (fun q => dim_entry (cq q) (j + 2) (tdelta_src i j q)) (seq 0 4)) (seq 0 17)) 9 i); [exact dim_delta|exact I].
Qed.
Lemma tcoeff_h_units h q i : (q < 4)%nat -> (i < 10)%nat -> tcoeff_h w (u * h) q i * u ^ 2 = tcoeff_h v h q i * u ^ cq q.
Proof using Hu Hw.
  intros Q I. apply entry_units.
  - apply (pick (fun q => forallb low (th_src i q)) 4 q); [|exact Q]. apply (pick (fun i => forallb (fun q => forallb low (th_src i q)) (seq 0 4)) 10 i); [exact low_h|exact I].
  - apply (pick (fun q => dim_entry (cq q) 2 (th_src i q)) 4 q); [|exact Q]. apply (pick (fun i => forallb (fun q => dim_entry (cq q) 2 (th_src i q)) (seq 0 4)) 10 i); [exact dim_h|exact I].
Qed.
Lemma horner_units f g x c n : (0 < n)%nat -> (forall j, (j < n)%nat -> g j * u ^ (j + 2) = f j * u ^ c) -> horner g (u * x) n * u ^ 2 = horner f x n * u ^ c.
Proof using Hu.
  intros N H. unfold horner. assert (forall i r s, (i < n)%nat -> s * u ^ (i + 2) = r * u ^ c -> horner_loop g (u * x) i s * u ^ 2 = horner_loop f x i r * u ^ c) as G.
  { induction i as [|i IH]; intros r s L E; [exact E|]. cbn [horner_loop]. apply IH; [lia|]. rewrite !Rmult_plus_distr_r, (H i) by lia. f_equal.
    replace (S i + 2)%nat with (S (i + 2)) in E by lia. cbn [pow] in E. replace (s * (u * x) * u ^ (i + 2)) with (x * (s * (u * u ^ (i + 2)))) by ring. rewrite E. ring. }
  apply G; [lia|]. apply H. lia.
Qed.
(** the factor of entry q *)
Definition gq (q : nat) : R := match q with 1%nat => u | 2%nat => / u | _ => 1 end.
Lemma gq_cq q a b : a * u ^ 2 = b * u ^ cq q -> a = gq q * b.
Proof using Hu.
  intro E. assert (a = b * u ^ cq q / u ^ 2) as ->. { rewrite <- E. field. lra. } destruct q as [|[|[|q]]]; cbn [cq gq pow]; field; lra.
Qed.
Lemma acc_units n g b b' c c' e : b' = g * b -> (forall i, (i < n)%nat -> c' i = g * c i) -> acc_eta n b' c' e = g * acc_eta n b c e.
Proof using.
  intros B C. unfold acc_eta. assert (forall i, In i (seq 0 n) -> c' i = g * c i) as C' by (intros i I; apply in_seq in I; apply C; lia). clear C.
  revert b b' B C'. induction (seq 0 n) as [|i l IH]; intros b b' B C; [exact B|]. cbn [fold_left]. apply IH; [rewrite (C i) by (left; reflexivity); rewrite B; ring|].
  intros j J. apply C. right. exact J.
Qed.
Lemma acc_units2 n g b b' c c' e e' k : b' = g * k * b -> (forall i, (i < n)%nat -> c' i = g * c i) -> (forall i, e' i = k * e i) -> acc_eta n b' c' e' = g * k * acc_eta n b c e.
Proof using.
  intros B C E. unfold acc_eta. assert (forall i, In i (seq 0 n) -> c' i = g * c i) as C' by (intros i I; apply in_seq in I; apply C; lia). clear C.
  revert b b' B C'. induction (seq 0 n) as [|i l IH]; intros b b' B C; [exact B|]. cbn [fold_left]. apply IH; [rewrite (C i) by (left; reflexivity); rewrite B, E; ring|].
  intros j J. apply C. right. exact J.
Qed.
Lemma step_delta_units etaf h E x : step_delta etaf w (u * h) (E / u ^ 2) (u * x) = resizeT u (step_delta etaf v h E x).
Proof using Hu Hw.
  assert (w 0%nat - E / u ^ 2 = (v 0%nat - E) / u ^ 2) as V0. { rewrite (Hw 0%nat) by lia. cbn [Nat.add]. field. lra. }
  unfold step_delta. rewrite V0.
  replace ((v 0%nat - E) / u ^ 2 * (u * x * (u * x))) with ((v 0%nat - E) * (x * x)) by (field; lra).
  set (l := etaf ETA_delta ((v 0%nat - E) * (x * x))).
  assert (forall q i, (q < 4)%nat -> (i < 9)%nat -> horner (tcoeff w (u * h) q i) (u * x) HMAX_delta = gq q * horner (tcoeff v h q i) x HMAX_delta) as Hh.
  { intros q i Q I. apply gq_cq, horner_units; [unfold HMAX_delta; lia|]. intros j J. apply tcoeff_units; assumption. }
  unfold resizeT. cbn [t00 t01 t10 t11 d00 d01 d10 d11].
  f_equal.
  - rewrite (acc_units ETA_delta 1 0 0 (fun i => horner (tcoeff v h 0 i) x HMAX_delta)); [ring|ring|intros; apply (Hh 0%nat); [lia|assumption]].
  - apply (acc_units ETA_delta u); [ring|intros; apply (Hh 1%nat); [lia|assumption]].
  - rewrite (acc_units ETA_delta (/ u) ((v 0%nat - E) * x * nth 1 l 0) _ (fun i => horner (tcoeff v h 2 i) x HMAX_delta)); [field; lra|field; lra|intros; apply (Hh 2%nat); [lia|assumption]].
  - rewrite (acc_units ETA_delta 1 0 0 (fun i => horner (tcoeff v h 3 i) x HMAX_delta)); [ring|ring|intros; apply (Hh 3%nat); [lia|assumption]].
  - rewrite (acc_units2 (ETA_delta - 1) 1 0 0 (fun i => horner (tcoeff v h 0 i) x HMAX_delta) _ (fun i => - (x * x) * nth (i + 1) l 0 / 2) _ (u ^ 2)); [ring|ring|intros; apply (Hh 0%nat); [lia|unfold ETA_delta in *; lia]|intros; field].
  - rewrite (acc_units2 (ETA_delta - 1) u 0 0 (fun i => horner (tcoeff v h 1 i) x HMAX_delta) _ (fun i => - (x * x) * nth (i + 1) l 0 / 2) _ (u ^ 2)); [ring|ring|intros; apply (Hh 1%nat); [lia|unfold ETA_delta in *; lia]|intros; field].
  - rewrite (acc_units2 (ETA_delta - 1) (/ u) (- x * nth 1 l 0 - (v 0%nat - E) * (x * x) * x * nth 2 l 0 / 2) _ (fun i => horner (tcoeff v h 2 i) x HMAX_delta) _ (fun i => - (x * x) * nth (i + 1) l 0 / 2) _ (u ^ 2));
      [field; lra|field; lra|intros; apply (Hh 2%nat); [lia|unfold ETA_delta in *; lia]|intros; field].
  - rewrite (acc_units2 (ETA_delta - 1) 1 0 0 (fun i => horner (tcoeff v h 3 i) x HMAX_delta) _ (fun i => - (x * x) * nth (i + 1) l 0 / 2) _ (u ^ 2)); [ring|ring|intros; apply (Hh 3%nat); [lia|unfold ETA_delta in *; lia]|intros; field].
Qed.
Lemma step_full_units etaf h E : step_full etaf w (u * h) (E / u ^ 2) = resizeT u (step_full etaf v h E).
Proof using Hu Hw.
  assert (w 0%nat - E / u ^ 2 = (v 0%nat - E) / u ^ 2) as V0. { rewrite (Hw 0%nat) by lia. cbn [Nat.add]. field. lra. }
  unfold step_full. rewrite V0.
  replace ((v 0%nat - E) / u ^ 2 * (u * h) * (u * h)) with ((v 0%nat - E) * h * h) by (field; lra).
  set (l := etaf ETA_h ((v 0%nat - E) * h * h)).
  assert (forall q i, (q < 4)%nat -> (i < 10)%nat -> tcoeff_h w (u * h) q i = gq q * tcoeff_h v h q i) as Hh.
  { intros q i Q I. apply gq_cq, tcoeff_h_units; assumption. }
  unfold resizeT. cbn [t00 t01 t10 t11 d00 d01 d10 d11].
  f_equal.
  - rewrite (acc_units ETA_h 1 0 0 (tcoeff_h v h 0)); [ring|ring|intros; apply (Hh 0%nat); [lia|assumption]].
  - apply (acc_units ETA_h u); [ring|intros; apply (Hh 1%nat); [lia|assumption]].
  - rewrite (acc_units ETA_h (/ u) ((v 0%nat - E) * h * nth 1 l 0) _ (tcoeff_h v h 2)); [field; lra|field; lra|intros; apply (Hh 2%nat); [lia|assumption]].
  - rewrite (acc_units ETA_h 1 0 0 (tcoeff_h v h 3)); [ring|ring|intros; apply (Hh 3%nat); [lia|assumption]].
  - rewrite (acc_units2 (ETA_h - 1) 1 0 0 (tcoeff_h v h 0) _ (fun i => - h * h * nth (i + 1) l 0 / 2) _ (u ^ 2)); [ring|ring|intros; apply (Hh 0%nat); [lia|unfold ETA_h in *; lia]|intros; field].
  - rewrite (acc_units2 (ETA_h - 1) u 0 0 (tcoeff_h v h 1) _ (fun i => - h * h * nth (i + 1) l 0 / 2) _ (u ^ 2)); [ring|ring|intros; apply (Hh 1%nat); [lia|unfold ETA_h in *; lia]|intros; field].
  - rewrite (acc_units2 (ETA_h - 1) (/ u) (- h * nth 1 l 0 + - (v 0%nat - E) * h * h * h * nth 2 l 0 / 2) _ (tcoeff_h v h 2) _ (fun i => - h * h * nth (i + 1) l 0 / 2) _ (u ^ 2));
      [field; lra|field; lra|intros; apply (Hh 2%nat); [lia|unfold ETA_h in *; lia]|intros; field].
  - rewrite (acc_units2 (ETA_h - 1) 1 0 0 (tcoeff_h v h 3) _ (fun i => - h * h * nth (i + 1) l 0 / 2) _ (u ^ 2)); [ring|ring|intros; apply (Hh 3%nat); [lia|unfold ETA_h in *; lia]|intros; field].
Qed.
End Units.

Lemma nth_resize u s k : nth k (spay (resize u s)) 0 = nth k (spay s) 0 / u ^ (k + 2).
Proof.
  unfold resize. cbn [spay]. destruct (Nat.ltb_spec k (length (spay s))) as [L|L].
  - rewrite nth_indep with (d' := (fun k => nth k (spay s) 0 / u ^ (k + 2)) 0%nat) by (rewrite map_length, seq_length; exact L).
    rewrite (map_nth (fun k => nth k (spay s) 0 / u ^ (k + 2))), seq_nth by exact L. reflexivity.
  - rewrite !nth_overflow; [unfold Rdiv; ring|exact L|rewrite map_length, seq_length; exact L].
Qed.
Lemma sh_resize u s : sh (resize u s) = u * sh s.
Proof. unfold sh, resize. cbn [smin smax]. ring. Qed.

(** The code compares step widths with the absolute number 1e-12; [comparable] says that the comparison comes out the same in both units. *)
Definition comparable (u d : R) : Prop := Rabs (u * d) <= / 10 ^ 12 <-> Rabs d <= / 10 ^ 12.
Lemma comparable_leb u d : comparable u d -> Rleb (Rabs (u * d)) EPS12 = Rleb (Rabs d) EPS12.
Proof.
  intros [A B]. unfold EPS12 in *. destruct (Rleb (Rabs d) (/ 10 ^ 12)) eqn:E.
  - apply Rleb_true. apply B. apply Rleb_true. exact E.
  - apply not_true_is_false. intro F. apply Rleb_true in F. apply A in F. apply Rleb_true in F. congruence.
Qed.
Lemma calcT_units etaf u s E d use_h : 0 < u -> comparable u d -> comparable u (d - sh s) ->
  calculateT etaf (resize u s) (E / u ^ 2) (u * d) use_h = resizeT u (calculateT etaf s E d use_h).
Proof.
  intros Hu C1 C2. unfold calculateT. rewrite sh_resize, (comparable_leb u d C1). replace (u * d - u * sh s) with (u * (d - sh s)) by ring. rewrite (comparable_leb u _ C2).
  destruct (Rleb (Rabs d) EPS12).
  - unfold resizeT, Tid. cbn [t00 t01 t10 t11 d00 d01 d10 d11]. f_equal; unfold Rdiv; ring.
  - destruct (use_h && Rleb (Rabs (d - sh s)) EPS12).
    + apply step_full_units; [exact Hu|]. intros k _. apply nth_resize.
    + apply step_delta_units; [exact Hu|]. intros k _. apply nth_resize.
Qed.
Lemma reverse_units u y : reverse (resizeY u y) = resizeY u (reverse y).
Proof. unfold reverse, resizeY. cbn [y0 y1 e0 e1]. f_equal; unfold Rdiv; ring. Qed.
Lemma tmul_units u t y : 0 < u -> tmul (resizeT u t) (resizeY u y) = resizeY u (tmul t y).
Proof. intro Hu. unfold tmul, resizeY, resizeT. cbn [y0 y1 e0 e1 t00 t01 t10 t11 d00 d01 d10 d11]. f_equal; field; lra. Qed.
Lemma tdiv_units u t y : 0 < u -> tdiv (resizeT u t) (resizeY u y) = resizeY u (tdiv t y).
Proof.
  intro Hu. unfold tdiv. rewrite <- tmul_units by exact Hu. f_equal. unfold resizeT. cbn [t00 t01 t10 t11 d00 d01 d10 d11]. f_equal; unfold Rdiv; ring.
Qed.
Lemma ltb_units u x y : 0 < u -> Rltb (u * x) (u * y) = Rltb x y.
Proof.
  intro Hu. unfold Rltb. destruct (Rlt_dec x y) as [A|A], (Rlt_dec (u * x) (u * y)) as [B|B]; try reflexivity; exfalso.
  - apply B. apply Rmult_lt_compat_l; assumption.
  - apply A. apply Rmult_lt_reg_l in B; assumption.
Qed.
Lemma leb_units u x y : 0 < u -> Rleb (u * x) (u * y) = Rleb x y.
Proof.
  intro Hu. unfold Rleb. destruct (Rle_dec x y) as [A|A], (Rle_dec (u * x) (u * y)) as [B|B]; try reflexivity; exfalso.
  - apply B. apply Rmult_le_compat_l; lra.
  - apply A. apply Rmult_le_reg_l in B; assumption.
Qed.

Section Chain.
Variable etaf : nat -> R -> list R.
Variable u : R.
Hypothesis Hu : 0 < u.
Let calcT := calculateT etaf.
Lemma propDelta_units vm vm' s E use_h delta y th th' : comparable u (Rmin (Rabs delta) (sh s)) -> comparable u (Rmin (Rabs delta) (sh s) - sh s) ->
  fst (propagateDelta calcT vm' (resize u s) (E / u ^ 2) use_h (u * delta) (resizeY u y, th')) = resizeY u (fst (propagateDelta calcT vm s E use_h delta (y, th))).
Proof using Hu.
  intros C1 C2. unfold propagateDelta. cbn [fst]. change (sdir (resize u s)) with (sdir s). rewrite sh_resize.
  replace (if dir_eqb (sdir s) Dbwd then u * delta * -1 else u * delta) with (u * (if dir_eqb (sdir s) Dbwd then delta * -1 else delta)) by (destruct (dir_eqb (sdir s) Dbwd); ring).
  set (d1 := if dir_eqb (sdir s) Dbwd then delta * -1 else delta).
  assert (Rabs d1 = Rabs delta) as A. { unfold d1. destruct (dir_eqb (sdir s) Dbwd); [|reflexivity]. replace (delta * -1) with (- delta) by ring. apply Rabs_Ropp. }
  replace (Rleb 0 (u * d1)) with (Rleb 0 d1) by (rewrite <- (leb_units u 0 d1 Hu), Rmult_0_r; reflexivity).
  replace (if Rleb 0 d1 then u * d1 else - (u * d1)) with (u * (if Rleb 0 d1 then d1 else - d1)) by (destruct (Rleb 0 d1); ring).
  assert ((if Rleb 0 d1 then d1 else - d1) = Rabs delta) as ->.
  { rewrite <- A. destruct (Rleb 0 d1) eqn:L; [apply Rleb_true in L; rewrite Rabs_pos_eq by exact L; reflexivity|].
    apply Rleb_false in L. rewrite Rabs_left by exact L. reflexivity. }
  rewrite (ltb_units u _ _ Hu). replace (if Rltb (sh s) (Rabs delta) then u * sh s else u * Rabs delta) with (u * Rmin (Rabs delta) (sh s)).
  2: { destruct (Rltb (sh s) (Rabs delta)) eqn:L; [apply Rltb_true in L; rewrite Rmin_right by lra; reflexivity|apply Rltb_false in L; rewrite Rmin_left by lra; reflexivity]. }
  replace (if Rltb (sh s) (Rabs delta) then sh s else Rabs delta) with (Rmin (Rabs delta) (sh s)).
  2: { destruct (Rltb (sh s) (Rabs delta)) eqn:L; [apply Rltb_true in L; rewrite Rmin_right by lra; reflexivity|apply Rltb_false in L; rewrite Rmin_left by lra; reflexivity]. }
  unfold calcT. rewrite (calcT_units etaf u s E _ use_h Hu C1 C2).
  destruct (dir_eqb (sdir s) Dbwd), (Rleb 0 d1); rewrite ?reverse_units, ?(tmul_units u _ _ Hu), ?(tdiv_units u _ _ Hu), ?reverse_units; reflexivity.
Qed.

(** the width of the step a sector makes between its base point and p *)
Definition width (s : sec) (p : R) : R := if dir_eqb (sdir s) Dfwd then Rmin (p - smin s) (sh s) else Rmin (smax s - p) (sh s).
Definition clear (s : sec) (p : R) : Prop := 0 < width s p -> comparable u (width s p) /\ comparable u (width s p - sh s).
Lemma half_units vm vm' s E use_h y th th' delta (c c' : bool) d' : c' = c -> d' = u * delta ->
  (c = true -> comparable u (Rmin (Rabs delta) (sh s)) /\ comparable u (Rmin (Rabs delta) (sh s) - sh s)) ->
  fst (if c' then propagateDelta calcT vm' (resize u s) (E / u ^ 2) use_h d' (resizeY u y, th') else (resizeY u y, th')) =
  resizeY u (fst (if c then propagateDelta calcT vm s E use_h delta (y, th) else (y, th))).
Proof using Hu. intros -> -> H. destruct c; [|reflexivity]. destruct (H eq_refl). apply propDelta_units; assumption. Qed.
Lemma sprop_units vm vm' s E y p q use_h : smin s < smax s -> clear s p -> clear s q ->
  fst (sprop calcT vm' (resize u s) (E / u ^ 2) (resizeY u y) (u * p) (u * q) use_h) = resizeY u (fst (sprop calcT vm s E y p q use_h)).
Proof using Hu.
  intros W Cp Cq. unfold sprop. change (smin (resize u s)) with (u * smin s). change (smax (resize u s)) with (u * smax s). change (sdir (resize u s)) with (sdir s).
  rewrite !(leb_units u _ _ Hu), !(ltb_units u _ _ Hu). destruct (negb _); [|reflexivity].
  unfold clear, width in Cp, Cq. destruct (dir_eqb (sdir s) Dfwd).
  - assert (forall r, (0 < Rmin (r - smin s) (sh s) -> comparable u (Rmin (r - smin s) (sh s)) /\ comparable u (Rmin (r - smin s) (sh s) - sh s)) ->
      Rltb (smin s) r = true -> forall z, Rabs z = Rabs (r - smin s) -> comparable u (Rmin (Rabs z) (sh s)) /\ comparable u (Rmin (Rabs z) (sh s) - sh s)) as K.
    { intros r C L z Ez. apply Rltb_true in L. rewrite Ez, Rabs_pos_eq by lra. apply C. unfold sh. apply Rmin_glb_lt; lra. }
    set (X := if Rltb (smin s) p then propagateDelta calcT vm s E use_h (smin s - p) (y, 0) else (y, 0)).
    set (X' := if Rltb (smin s) p then propagateDelta calcT vm' (resize u s) (E / u ^ 2) use_h (u * smin s - u * p) (resizeY u y, 0) else (resizeY u y, 0)).
    assert (fst X' = resizeY u (fst X)) as EX. { apply half_units; [reflexivity|ring|]. intro L. apply (K p Cp L). rewrite <- Rabs_Ropp. f_equal. ring. }
    destruct X as (xy, xt), X' as (xy', xt'). cbn [fst] in EX. subst xy'. apply half_units; [reflexivity|ring|]. intro L. apply (K q Cq L). reflexivity.
  - assert (forall r, (0 < Rmin (smax s - r) (sh s) -> comparable u (Rmin (smax s - r) (sh s)) /\ comparable u (Rmin (smax s - r) (sh s) - sh s)) ->
      Rltb r (smax s) = true -> forall z, Rabs z = Rabs (smax s - r) -> comparable u (Rmin (Rabs z) (sh s)) /\ comparable u (Rmin (Rabs z) (sh s) - sh s)) as K.
    { intros r C L z Ez. apply Rltb_true in L. rewrite Ez, Rabs_pos_eq by lra. apply C. unfold sh. apply Rmin_glb_lt; lra. }
    set (X := if Rltb p (smax s) then propagateDelta calcT vm s E use_h (smax s - p) (y, 0) else (y, 0)).
    set (X' := if Rltb p (smax s) then propagateDelta calcT vm' (resize u s) (E / u ^ 2) use_h (u * smax s - u * p) (resizeY u y, 0) else (resizeY u y, 0)).
    assert (fst X' = resizeY u (fst X)) as EX. { apply half_units; [reflexivity|ring|]. intro L. apply (K p Cp L). reflexivity. }
    destruct X as (xy, xt), X' as (xy', xt'). cbn [fst] in EX. subst xy'. apply half_units; [reflexivity|ring|]. intro L. apply (K q Cq L). rewrite <- Rabs_Ropp. f_equal. ring.
Qed.
Lemma vget_map {A B} (f : A -> B) l i : vget (map f l) i = (do s <- vget l i; Ret (f s)).
Proof using. unfold vget. destruct (i <? 0)%Z; [reflexivity|]. rewrite nth_error_map. destruct (nth_error l (Z.to_nat i)); reflexivity. Qed.
Lemma vget_In {A} (l : list A) i s : vget l i = Ret s -> In s l.
Proof using. unfold vget. destruct (i <? 0)%Z; [discriminate|]. destruct (nth_error l (Z.to_nat i)) eqn:E; [|discriminate]. intro H. injection H as <-. exact (nth_error_In _ _ E). Qed.
Lemma contains_units s x : contains (resize u s) (u * x) = contains s x.
Proof using Hu. change (Rleb (u * x) (u * smax s) && Rleb (u * smin s) (u * x) = Rleb x (smax s) && Rleb (smin s) x). rewrite !(leb_units u _ _ Hu). reflexivity. Qed.
Lemma find_units fuel l x : forall i j, find_sector_loop fuel (map (resize u) l) (u * x) i j = find_sector_loop fuel l x i j.
Proof using Hu.
  induction fuel as [|fuel IH]; intros i j; [reflexivity|]. cbn [find_sector_loop]. rewrite vget_map. destruct (vget l _) as [s| | |]; cbn; try reflexivity.
  rewrite contains_units. destruct (contains s x); [reflexivity|]. destruct (_ =? i)%Z; [reflexivity|].
  change (slt (u * x) (u * smin s)) with (Rltb (u * x) (u * smin s)). rewrite (ltb_units u _ _ Hu). change (slt x (smin s)) with (Rltb x (smin s)). destruct (Rltb x (smin s)); apply IH.
Qed.
Definition y_of (r : res (Y * R)) : res Y := do p <- r; Ret (fst p).
Lemma loop_units vm vm' l E p q use_h : (forall s, In s l -> smin s < smax s /\ clear s p /\ clear s q) -> forall fuel i y th th',
  y_of (prop_loop calcT vm' fuel (map (resize u) l) (E / u ^ 2) (u * p) (u * q) use_h i (resizeY u y) th') =
  (do z <- y_of (prop_loop calcT vm fuel l E p q use_h i y th); Ret (resizeY u z)).
Proof using Hu.
  intro H. induction fuel as [|fuel IH]; intros i y th th'; [reflexivity|]. cbn [prop_loop]. rewrite vget_map. destruct (vget l i) as [s| | |] eqn:V; cbn [bind]; try reflexivity.
  destruct (H s (vget_In _ _ _ V)) as (W & Cp & Cq). pose proof (sprop_units vm vm' s E y p q use_h W Cp Cq) as SP.
  destruct (sprop calcT vm s E y p q use_h) as (y2, t2), (sprop calcT vm' (resize u s) (E / u ^ 2) (resizeY u y) (u * p) (u * q) use_h) as (y3, t3). cbn [fst] in SP. subst y3.
  rewrite contains_units, (ltb_units u _ _ Hu), map_length. destruct (contains s q); [reflexivity|]. destruct ((0 <=? _) && _)%Z; [apply IH|reflexivity].
Qed.
Lemma propagate_units vm vm' l lo hi E y p q use_h : (forall s, In s l -> smin s < smax s /\ clear s p /\ clear s q) ->
  y_of (propagate calcT vm' (map (resize u) l) (u * lo) (u * hi) (E / u ^ 2) (resizeY u y) (u * p) (u * q) use_h) =
  (do z <- y_of (propagate calcT vm l lo hi E y p q use_h); Ret (resizeY u z)).
Proof using Hu.
  intro H. unfold propagate. change (dom_contains (u * lo) (u * hi) (u * p)) with (Rleb (u * lo) (u * p) && Rleb (u * p) (u * hi)).
  change (dom_contains (u * lo) (u * hi) (u * q)) with (Rleb (u * lo) (u * q) && Rleb (u * q) (u * hi)). rewrite !(leb_units u _ _ Hu).
  change (Rleb lo p && Rleb p hi) with (dom_contains lo hi p). change (Rleb lo q && Rleb q hi) with (dom_contains lo hi q).
  destruct (negb (dom_contains lo hi p) || negb (dom_contains lo hi q)); [reflexivity|]. unfold find_sector. rewrite map_length, find_units.
  destruct (find_sector_loop _ l p 0 _) as [i| | |]; cbn [bind]; try reflexivity. rewrite vget_map. destruct (vget l i) as [s| | |]; cbn [bind]; try reflexivity.
  apply loop_units. exact H.
Qed.
End Chain.

(** ** Whole sectors *)
Lemma boundary_side : forall (l : list sec) lo hi, chain lo hi l -> (forall s, In s l -> smin s < smax s) ->
  forall p, p = lo \/ (exists t, In t l /\ p = smax t) -> forall s, In s l -> p <= smin s \/ smax s <= p.
Proof.
  induction l as [|s0 l IH]; intros lo hi C W p B s I; [destruct I|]. cbn [chain] in C. destruct C as (C0 & C).
  assert (forall s, In s l -> smin s < smax s) as W' by (intros t T; apply W; right; exact T).
  pose proof (chain_order l (smax s0) hi C (fun t T => Rlt_le _ _ (W' t T))) as (_ & O). pose proof (W s0 (or_introl eq_refl)) as W0.
  destruct I as [<-|I].
  - destruct B as [->|(t & [<-|T] & ->)]; [left; lra|right; lra|right]. destruct (O t T). specialize (W' t T). lra.
  - destruct B as [->|(t & [<-|T] & ->)].
    + left. destruct (O s I). lra.
    + left. destruct (O s I). lra.
    + apply (IH (smax s0) hi C W' (smax t)); [right; exists t; auto|exact I].
Qed.
Lemma whole_clear u lo hi (l : list sec) p : 0 < u -> chain lo hi l -> (forall s, In s l -> / 10 ^ 12 < sh s /\ / 10 ^ 12 < u * sh s) ->
  p = lo \/ (exists t, In t l /\ p = smax t) -> forall s, In s l -> smin s < smax s /\ clear u s p.
Proof.
  intros Hu C W B s I. assert (0 < / 10 ^ 12) as E0 by (apply Rinv_0_lt_compat, pow_lt; lra).
  assert (forall s, In s l -> smin s < smax s) as W' by (intros t T; destruct (W t T) as (A & _); unfold sh in A; lra).
  split; [apply W', I|]. destruct (boundary_side l lo hi C W' p B s I) as [S1|S1]; specialize (W' s I); specialize (W s I); unfold clear, width; destruct (dir_eqb (sdir s) Dfwd); intro P.
  - exfalso. pose proof (Rmin_l (p - smin s) (sh s)). lra.
  - rewrite Rmin_right in * by (unfold sh; lra). split; unfold comparable.
    + rewrite !Rabs_pos_eq by (unfold sh in *; lra). lra.
    + replace (sh s - sh s) with 0 by ring. rewrite Rmult_0_r, Rabs_R0. tauto.
  - rewrite Rmin_right in * by (unfold sh; lra). split; unfold comparable.
    + rewrite !Rabs_pos_eq by (unfold sh in *; lra). lra.
    + replace (sh s - sh s) with 0 by ring. rewrite Rmult_0_r, Rabs_R0. tauto.
  - exfalso. pose proof (Rmin_l (smax s - p) (sh s)). lra.
Qed.
Lemma chain_end : forall (l : list sec) lo hi, chain lo hi l -> l <> [] -> exists t, In t l /\ hi = smax t.
Proof.
  induction l as [|s l IH]; intros lo hi C N; [congruence|]. cbn [chain] in C. destruct C as (_ & C). destruct l as [|s' l].
  - exists s. cbn in C. split; [left; reflexivity|congruence].
  - destruct (IH (smax s) hi C ltac:(discriminate)) as (t & T & E). exists t. split; [right; exact T|exact E].
Qed.
Lemma resizeY_fields u y : y0 (resizeY u y) = y0 y /\ y1 (resizeY u y) = y1 y / u /\ e0 (resizeY u y) = u ^ 2 * e0 y /\ e1 (resizeY u y) = u * e1 y.
Proof. auto. Qed.

(** ** Theorems *)
(** One sector: the matrix of a step, and its derivative with respect to the energy. *)
Theorem C89_step : forall u s E d use_h, 0 < u -> comparable u d -> comparable u (d - sh s) ->
  calculateT eta_code (resize u s) (E / u ^ 2) (u * d) use_h = resizeT u (calculateT eta_code s E d use_h).
Proof. intros. apply calcT_units; assumption. Qed.
(** Propagation between any two points, in either direction, exceptions and undefined behaviour included: value and derivatives
    (the stored angle counts with an absolute energy of 1 and is another one). *)
Theorem C89_propagate : forall u vm vm' l lo hi E y p q use_h, 0 < u -> (forall s, In s l -> smin s < smax s /\ clear u s p /\ clear u s q) ->
  y_of (propagate (calculateT eta_code) vm' (map (resize u) l) (u * lo) (u * hi) (E / u ^ 2) (resizeY u y) (u * p) (u * q) use_h) =
  (do z <- y_of (propagate (calculateT eta_code) vm l lo hi E y p q use_h); Ret (resizeY u z)).
Proof. intros. apply propagate_units; assumption. Qed.
(** The matching function is divided by u, its derivative multiplied by u: so E is a root for the one problem if and only if E / u^2 is one
    for the other, and the Newton steps err / derr correspond in the same way. *)
Theorem C89_matching : forall u vm vm' l m lo hi E left right use_h, 0 < u -> partition lo hi l ->
  (forall s, In s l -> / 10 ^ 12 < sh s /\ / 10 ^ 12 < u * sh s) -> (0 <= m < Z.of_nat (length l))%Z ->
  forall err derr th, matchingError (calculateT eta_code) vm l m lo hi E left right use_h = Ret (err, derr, th) ->
  exists th', matchingError (calculateT eta_code) vm' (map (resize u) l) m (u * lo) (u * hi) (E / u ^ 2) (resizeY u left) (resizeY u right) use_h = Ret (err / u, u * derr, th').
Proof.
  intros u vm vm' l m lo hi E left right use_h Hu (N & C) W Hm err derr th. unfold matchingError. rewrite vget_map.
  destruct (vget l m) as [sm| | |] eqn:V; cbn [bind]; try discriminate. change (smax (resize u sm)) with (u * smax sm).
  pose proof (vget_In l m sm V) as I. pose proof (chain_end l lo hi C N) as (te & Te & Ee).
  assert (forall p, p = lo \/ (exists t, In t l /\ p = smax t) -> forall s, In s l -> smin s < smax s /\ clear u s p) as K by (intros; eapply whole_clear; eassumption).
  assert (exists t, In t l /\ smax sm = smax t) as Bm by (exists sm; auto). assert (exists t, In t l /\ hi = smax t) as Bh by (exists te; auto).
  pose proof (C89_propagate u vm vm' l lo hi E left lo (smax sm) use_h Hu) as PL. specialize (PL ltac:(intros s Is; destruct (K lo (or_introl eq_refl) s Is), (K (smax sm) (or_intror Bm) s Is); auto)).
  pose proof (C89_propagate u vm vm' l lo hi E right hi (smax sm) use_h Hu) as PR. specialize (PR ltac:(intros s Is; destruct (K hi (or_intror Bh) s Is), (K (smax sm) (or_intror Bm) s Is); auto)).
  destruct (propagate (calculateT eta_code) vm l lo hi E left lo (smax sm) use_h) as [(yl, tl)| | |]; cbn [bind]; try discriminate.
  destruct (propagate (calculateT eta_code) vm l lo hi E right hi (smax sm) use_h) as [(yr, tr)| | |]; cbn [bind]; try discriminate.
  cbn [y_of bind fst] in PL, PR.
  destruct (propagate (calculateT eta_code) vm' (map (resize u) l) (u * lo) (u * hi) (E / u ^ 2) (resizeY u left) (u * lo) (u * smax sm) use_h) as [(yl', tl')| | |]; cbn [y_of bind fst] in PL; try discriminate.
  destruct (propagate (calculateT eta_code) vm' (map (resize u) l) (u * lo) (u * hi) (E / u ^ 2) (resizeY u right) (u * hi) (u * smax sm) use_h) as [(yr', tr')| | |]; cbn [y_of bind fst] in PR; try discriminate.
  injection PL as ->. injection PR as ->. intro Q. injection Q as <- <- <-. exists (tl' - tr'). cbn [bind].
  destruct (resizeY_fields u yl) as (-> & -> & -> & ->). destruct (resizeY_fields u yr) as (-> & -> & -> & ->). f_equal. f_equal. f_equal; field; lra.
Qed.
(** The error estimate that steers the builder is not of this kind: its a priori terms are no pure numbers.  Two of them, and how they change
    with the unit (the tolerance they are compared with does not change). *)
Theorem C89_estimate_terms : forall u s, 0 < u -> let v k := nth k (spay s) 0 in let w k := nth k (spay (resize u s)) 0 in let h := sh s in let h' := sh (resize u s) in
  Rabs (w 15%nat) * h' ^ 15 = Rabs (v 15%nat) * h ^ 15 / u ^ 2 /\
  w 7%nat * w 7%nat * h' ^ 14 = v 7%nat * v 7%nat * h ^ 14 / u ^ 4.
Proof.
  intros u s Hu v w h h'. unfold w, h'. rewrite sh_resize, !nth_resize. fold (v 15%nat) (v 7%nat) h. change (15 + 2)%nat with 17%nat. change (7 + 2)%nat with 9%nat. split.
  - unfold Rdiv at 1. rewrite Rabs_mult, (Rabs_pos_eq (/ u ^ 17)) by (apply Rlt_le, Rinv_0_lt_compat, pow_lt, Hu). generalize (Rabs (v 15%nat)). intro z. field. lra.
  - field. lra.
Qed.

(** ** Examples *)
Definition un_l : list sec := [mkSector 0 1 Dfwd [2; 3]; mkSector 1 2 Dbwd [5]].
Example C89_matching_case : partition 0 2 un_l /\ (forall s, In s un_l -> / 10 ^ 12 < sh s /\ / 10 ^ 12 < 3 * sh s) /\ (0 <= 0 < Z.of_nat (length un_l))%Z.
Proof.
  assert (/ 10 ^ 12 < 1) as E. { rewrite <- Rinv_1. apply Rinv_lt_contravar; [rewrite Rmult_1_l; apply pow_lt; lra|]. apply Rlt_pow_R1; [lra|lia]. }
  split; [split; [discriminate|cbn; auto]|]. split; [|cbn; lia]. intros s [<-|[<-|[]]]; unfold sh; cbn [smin smax]; lra.
Qed.
Example C89_resize_case : resize 2 (mkSector 0 1 Dfwd [4; 16]) = mkSector 0 2 Dfwd [1; 2].
Proof. unfold resize. cbn. f_equal; [ring|ring|]. f_equal; [field|]. f_equal. field. Qed.
Example C89_clear_case : clear 3 (mkSector 0 1 Dfwd []) (1 / 2).
Proof.
  assert (/ 10 ^ 12 < 1 / 10) as E. { replace (1 / 10) with (/ 10) by lra. apply Rinv_lt_contravar; [apply Rmult_lt_0_compat; [lra|apply pow_lt; lra]|]. rewrite <- (pow_1 10) at 1. apply Rlt_pow; [lra|lia]. }
  intros _. unfold width, sh, comparable. cbn [sdir dir_eqb smin smax]. rewrite Rmin_left by lra. split.
  - rewrite !Rabs_pos_eq by lra. lra.
  - rewrite !Rabs_left by lra. lra.
Qed.

Print Assumptions C89_step.
Print Assumptions C89_propagate.
Print Assumptions C89_matching.
Print Assumptions C89_estimate_terms.
