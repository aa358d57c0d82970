(** Residual of the coupled Schroedinger equation for one column of sums of eta functions with polynomial coefficients. *)
From Coq Require Import String Reals ZArith Lra Lia.
From Coquelicot Require Import Coquelicot.
From Coq Require Import List Bool.
From Verif Require Import Base S_Eta P_Eta S_Formulas P_Terms P_WTerms P_Formulas.
Import ListNotations.
Open Scope R_scope.

(** residual lists: a_i'' + 2 b_{i+1} - 2 (2i-1) b_i - X(a_i) *)
Fixpoint wresid (X : list term -> list term) (i : nat) (b : list term) (l : list (list term)) : list (list term) :=
  match l with
  | [] => []
  | a :: r =>
    let bn := match r with [] => [] | a' :: _ => Bs (S i) a' end in
    wnorm (resid_diff i a b bn ++ map (tsc (-1)) (X a)) :: wresid X (S i) bn r
  end.
Fixpoint wB_oks (i : nat) (l : list (list term)) : bool :=
  match l with [] => true | a :: r => forallb (tB_ok i) a && wB_oks (S i) r end.
(** derivative rows: a_i' + c_{i+1} - (2i-1) c_i - d_i with c_i = a_i / delta *)
Fixpoint wder (i : nat) (c : list term) (l m : list (list term)) : list (list term) :=
  match l, m with
  | a :: r, d :: s =>
    let cn := match r with [] => [] | a' :: _ => map tdiv1 a' end in
    wnorm (der_diff i a c cn d) :: wder (S i) cn r s
  | _, _ => []
  end.
Fixpoint wder_oks (i : nat) (l m : list (list term)) : bool :=
  match l, m with
  | [], [] => true
  | a :: r, _ :: s => ((i =? 0)%nat || forallb tdiv1_ok a) && wder_oks (S i) r s
  | _, _ => false
  end.

Section Resid.
Variable W : list nat -> R.
Variable h w : R.
Notation lev := (wlev W h).
Notation et i x := (eta i (w * (x * x))).

Fixpoint wy (i : nat) (l : list (list term)) (x : R) : R :=
  match l with [] => 0 | a :: r => lev x a * et i x + wy (S i) r x end.
Fixpoint wy1 (i : nat) (l : list (list term)) (x : R) : R :=
  match l with [] => 0 | a :: r => (lev x (map td1 a) * et i x + lev x a * (w * x * et (S i) x)) + wy1 (S i) r x end.
Fixpoint wy2 (i : nat) (l : list (list term)) (x : R) : R :=
  match l with
  | [] => 0
  | a :: r => (lev x (map td1 (map td1 a)) * et i x + 2 * (lev x (map td1 a) * (w * x * et (S i) x))
               + lev x a * (w * et (S i) x + w * x * (w * x * et (S (S i)) x))) + wy2 (S i) r x
  end.

Lemma wy_derive : forall l i x, is_derive (wy i l) x (wy1 i l x).
Proof.
  induction l as [|a l IH]; intros i x; cbn [wy wy1].
  - apply (is_derive_ext (fun _ : R => 0)); [reflexivity|]. auto_derive; [exact I|reflexivity].
  - apply (is_derive_ext (fun x => (lev x a * et i x) + wy (S i) l x)); [reflexivity|].
    apply (is_derive_plus (fun x => lev x a * et i x) (wy (S i) l)); [|apply IH].
    evar_last; [apply (is_derive_mult (fun x => lev x a) (fun x => et i x)); [apply wd1_val|apply eta_comp_derive|intros; apply Rmult_comm]|].
    reflexivity.
Qed.
Lemma wy1_derive : forall l i x, is_derive (wy1 i l) x (wy2 i l x).
Proof.
  induction l as [|a l IH]; intros i x; cbn [wy1 wy2].
  - apply (is_derive_ext (fun _ : R => 0)); [reflexivity|]. auto_derive; [exact I|reflexivity].
  - apply (is_derive_ext (fun x => (lev x (map td1 a) * et i x + lev x a * (w * x * et (S i) x)) + wy1 (S i) l x)); [reflexivity|].
    apply (is_derive_plus (fun x => lev x (map td1 a) * et i x + lev x a * (w * x * et (S i) x)) (wy1 (S i) l)); [|apply IH].
    assert (is_derive (fun x => lev x (map td1 a) * et i x) x
      (lev x (map td1 (map td1 a)) * et i x + lev x (map td1 a) * (w * x * et (S i) x))) as D1.
    { evar_last; [apply (is_derive_mult (fun x => lev x (map td1 a)) (fun x => et i x)); [apply wd1_val|apply eta_comp_derive|intros; apply Rmult_comm]|]. reflexivity. }
    assert (is_derive (fun x => w * x * et (S i) x) x (w * et (S i) x + w * x * (w * x * et (S (S i)) x))) as D2.
    { evar_last; [apply (is_derive_mult (fun x => w * x) (fun x => et (S i) x)); [|apply eta_comp_derive|intros; apply Rmult_comm]|].
      - auto_derive; [exact I|reflexivity].
      - unfold plus, mult; simpl. ring. }
    assert (is_derive (fun x => lev x a * (w * x * et (S i) x)) x
      (lev x (map td1 a) * (w * x * et (S i) x) + lev x a * (w * et (S i) x + w * x * (w * x * et (S (S i)) x)))) as D3.
    { evar_last; [apply (is_derive_mult (fun x => lev x a) (fun x => w * x * et (S i) x)); [apply wd1_val|exact D2|intros; apply Rmult_comm]|]. reflexivity. }
    evar_last; [apply (is_derive_plus _ _ _ _ _ D1 D3)|].
    match goal with |- plus ?p ?q = _ => change (plus p q) with (p + q) end. ring.
Qed.

Lemma wresid_val : forall X l i b x,
  wB_oks i l = true ->
  (match l with [] => lev x b = 0 | a :: _ => lev x b = lev x (Bs i a) end) ->
  (i = 0%nat -> lev x b = 0) ->
  wy2 i l x - w * wy i l x - wy i (map X l) x
  = (match i with O => 0 | S j => 2 * lev x b * et j x end) + wy i (wresid X i b l) x.
Proof.
  intros X. induction l as [|a l IH]; intros i b x Hok Hb H0; cbn [wy2 wy wresid map].
  - rewrite Hb. destruct i; ring.
  - cbn [wB_oks] in Hok. set (bn := match l with [] => [] | a' :: _ => Bs (S i) a' end) in *.
    apply andb_prop in Hok. destruct Hok as [HB Hr].
    specialize (IH (S i) bn x Hr).
    assert (match l with [] => lev x bn = 0 | a' :: _ => lev x bn = lev x (Bs (S i) a') end) as Hbn
      by (unfold bn; destruct l; reflexivity).
    specialize (IH Hbn (fun E => match Nat.neq_succ_0 _ E with end)). cbv iota in IH.
    rewrite wnorm_val. unfold resid_diff. rewrite !wlev_app, !wlev_tsc, mult_IZR, minus_IZR, mult_IZR, <- INR_IZR_INZ.
    match goal with |- ?p + ?q - w * (?r + ?s) - (?t + ?u) = _ => replace (p + q - w * (r + s) - (t + u)) with ((p - w * r - t) + (q - w * s - u)) by ring end.
    rewrite IH. pose proof (wB_val W h i a x HB) as EB. rewrite <- Hb in EB.
    pose proof (eta_rec i (w * (x * x))) as Ei.
    set (A := lev x a) in *. set (A1 := lev x (map td1 a)) in *. set (A2 := lev x (map td1 (map td1 a))) in *.
    set (B := lev x b) in *. set (BN := lev x bn) in *. set (XA := lev x (X a)) in *.
    set (HS := wy _ (wresid _ _ _ _) x).
    set (e0 := et i x) in *. set (e1 := et (S i) x) in *. set (e2 := et (S (S i)) x) in *.
    assert (A2 * e0 + 2 * (A1 * (w * x * e1)) + A * (w * e1 + w * x * (w * x * e2)) - w * (A * e0)
            = A2 * e0 + 2 * w * e1 * (x ^ 2 * B)) as E.
    { rewrite <- EB. replace (A * (w * e1 + w * x * (w * x * e2))) with (A * w * (e1 + (w * (x * x) * e2))) by ring.
      replace (w * (x * x) * e2) with (e0 - (2 * INR i + 1) * e1) by lra. ring. }
    rewrite E. destruct i as [|j].
    + rewrite (H0 eq_refl). simpl (INR 0). ring.
    + pose proof (eta_rec j (w * (x * x))) as Ej. set (em := et j x) in *. fold e0 in Ej. fold e1 in Ej.
      replace (2 * w * e1 * (x ^ 2 * B)) with (2 * B * (w * (x * x) * e1)) by ring.
      replace (w * (x * x) * e1) with (em - (2 * INR j + 1) * e0) by lra. rewrite S_INR. ring.
Qed.

Lemma wder_val : forall l m i c x,
  wder_oks (S i) l m = true ->
  (match l with [] => lev x c = 0 | a :: _ => lev x c = lev x (map tdiv1 a) end) ->
  wy1 (S i) l x - wy (S i) m x = lev x c * et i x + wy (S i) (wder (S i) c l m) x.
Proof.
  induction l as [|a l IH]; intros m i c x Hok Hc; destruct m as [|d m]; cbn [wder_oks] in Hok; try discriminate.
  - cbn [wy1 wy wder]. rewrite Hc. ring.
  - cbn [wy1 wy wder]. set (cn := match l with [] => [] | a' :: _ => map tdiv1 a' end) in *.
    apply andb_prop in Hok. destruct Hok as [Hd Hr]. cbn [Nat.eqb orb] in Hd.
    assert (match l with [] => lev x cn = 0 | a' :: _ => lev x cn = lev x (map tdiv1 a') end) as Hcn
      by (unfold cn; destruct l; reflexivity).
    specialize (IH m (S i) cn x Hr Hcn).
    rewrite wnorm_val. unfold der_diff. rewrite !wlev_app, !wlev_tsc, opp_IZR, minus_IZR, mult_IZR, <- INR_IZR_INZ.
    pose proof (wdiv1_val W h a x Hd) as EA. rewrite <- Hc in EA.
    pose proof (eta_rec i (w * (x * x))) as Ei.
    match goal with |- ?p + ?q - (?r + ?s) = _ => replace (p + q - (r + s)) with ((p - r) + (q - s)) by ring end.
    rewrite IH, EA.
    replace (x * lev x c * (w * x * et (S (S i)) x)) with (lev x c * (w * (x * x) * et (S (S i)) x)) by ring.
    replace (w * (x * x) * et (S (S i)) x) with (et i x - (2 * INR i + 1) * et (S i) x) by lra.
    rewrite S_INR. ring.
Qed.
Lemma wder_val0 : forall a l m x, wder_oks 0 (a :: l) m = true ->
  wy1 0 (a :: l) x - wy 0 m x = lev x a * (w * x * et 1 x) + wy 0 (wder 0 [] (a :: l) m) x.
Proof.
  intros a l [|d m] x Hok; [discriminate|].
  cbn [wder_oks] in Hok. cbn [wy1 wy wder]. set (cn := match l with [] => [] | a' :: _ => map tdiv1 a' end) in *.
  apply andb_prop in Hok. destruct Hok as [_ Hr].
  rewrite wnorm_val. unfold der_diff. rewrite !wlev_app, !wlev_tsc. cbn [map].
  change (lev x []) with 0.
  assert (match l with [] => lev x cn = 0 | a' :: _ => lev x cn = lev x (map tdiv1 a') end) as Hcn
    by (unfold cn; destruct l; reflexivity).
  pose proof (wder_val l m 0 cn x Hr Hcn) as IH.
  match goal with |- ?p + ?q - (?r + ?s) = _ => replace (p + q - (r + s)) with ((p - r) + (q - s)) by ring end.
  rewrite IH. ring.
Qed.

Lemma wy_rsum : forall l i x, wy i l x = rsum (List.length l) (fun k => lev x (nth k l []) * eta (i + k) (w * (x * x))).
Proof.
  induction l as [|a l IH]; intros i x; [reflexivity|]. cbn [wy List.length]. rewrite P_Terms2.rsum_S, IH. cbn [nth].
  rewrite Nat.add_0_r. f_equal. apply P_Terms2.rsum_ext. intros k Hk. f_equal. f_equal. lia.
Qed.
End Resid.
Lemma wresid_length : forall X l i b, List.length (wresid X i b l) = List.length l.
Proof. induction l; intros; cbn [wresid List.length]; [reflexivity|rewrite IHl; reflexivity]. Qed.
