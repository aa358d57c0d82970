(** Residual of the Schroedinger equation for sums of eta functions with polynomial coefficients. *)
From Coq Require Import String Reals ZArith Lra Lia.
From Coquelicot Require Import Coquelicot.
From Coq Require Import List Bool.
From Verif Require Import Base S_Eta P_Eta S_Poly S_Legendre S_Formulas M_TableData M_Formulas P_Terms P_Terms2.
Import ListNotations.
Open Scope R_scope.

Section Resid.
Variable v : nat -> R.
Variable h w : R.
Notation lev := (leval v h).
Notation et i x := (eta i (w * (x * x))).

Lemma eta_comp_derive : forall i x, is_derive (fun y => et i y) x (w * x * et (S i) x).
Proof.
  intros i x. evar_last.
  - apply (is_derive_comp (eta i) (fun y => w * (y * y))); [apply eta_derive|]. auto_derive; [exact I|reflexivity].
  - unfold scal; simpl; unfold mult; simpl. field.
Qed.

Fixpoint ysum (i : nat) (l : list (list term)) (x : R) : R :=
  match l with [] => 0 | a :: r => lev x a * et i x + ysum (S i) r x end.
Fixpoint y1sum (i : nat) (l : list (list term)) (x : R) : R :=
  match l with [] => 0 | a :: r => (lev x (map td1 a) * et i x + lev x a * (w * x * et (S i) x)) + y1sum (S i) r x end.
Fixpoint y2sum (i : nat) (l : list (list term)) (x : R) : R :=
  match l with
  | [] => 0
  | a :: r => (lev x (map td1 (map td1 a)) * et i x + 2 * (lev x (map td1 a) * (w * x * et (S i) x))
               + lev x a * (w * et (S i) x + w * x * (w * x * et (S (S i)) x))) + y2sum (S i) r x
  end.

Lemma ysum_derive : forall l i x, is_derive (ysum i l) x (y1sum i l x).
Proof.
  induction l as [|a l IH]; intros i x; cbn [ysum y1sum].
  - apply (is_derive_ext (fun _ : R => 0)); [reflexivity|]. auto_derive; [exact I|reflexivity].
  - apply (is_derive_ext (fun x => (lev x a * et i x) + ysum (S i) l x)); [reflexivity|].
    apply (is_derive_plus (fun x => lev x a * et i x) (ysum (S i) l)); [|apply IH].
    evar_last; [apply (is_derive_mult (fun x => lev x a) (fun x => et i x)); [apply ld1_val|apply eta_comp_derive|intros; apply Rmult_comm]|].
    reflexivity.
Qed.
Lemma y1sum_derive : forall l i x, is_derive (y1sum i l) x (y2sum i l x).
Proof.
  induction l as [|a l IH]; intros i x; cbn [y1sum y2sum].
  - apply (is_derive_ext (fun _ : R => 0)); [reflexivity|]. auto_derive; [exact I|reflexivity].
  - apply (is_derive_ext (fun x => (lev x (map td1 a) * et i x + lev x a * (w * x * et (S i) x)) + y1sum (S i) l x)); [reflexivity|].
    apply (is_derive_plus (fun x => lev x (map td1 a) * et i x + lev x a * (w * x * et (S i) x)) (y1sum (S i) l)); [|apply IH].
    assert (is_derive (fun x => lev x (map td1 a) * et i x) x
      (lev x (map td1 (map td1 a)) * et i x + lev x (map td1 a) * (w * x * et (S i) x))) as D1.
    { evar_last; [apply (is_derive_mult (fun x => lev x (map td1 a)) (fun x => et i x)); [apply ld1_val|apply eta_comp_derive|intros; apply Rmult_comm]|]. reflexivity. }
    assert (is_derive (fun x => w * x * et (S i) x) x (w * et (S i) x + w * x * (w * x * et (S (S i)) x))) as D2.
    { evar_last; [apply (is_derive_mult (fun x => w * x) (fun x => et (S i) x)); [|apply eta_comp_derive|intros; apply Rmult_comm]|].
      - auto_derive; [exact I|reflexivity].
      - unfold plus, mult; simpl. ring. }
    assert (is_derive (fun x => lev x a * (w * x * et (S i) x)) x
      (lev x (map td1 a) * (w * x * et (S i) x) + lev x a * (w * et (S i) x + w * x * (w * x * et (S (S i)) x)))) as D3.
    { evar_last; [apply (is_derive_mult (fun x => lev x a) (fun x => w * x * et (S i) x)); [apply ld1_val|exact D2|intros; apply Rmult_comm]|]. reflexivity. }
    evar_last; [apply (is_derive_plus _ _ _ _ _ D1 D3)|].
    match goal with |- plus ?p ?q = _ => change (plus p q) with (p + q) end. ring.
Qed.

Definition Dsum (D : nat -> list term) (ks : list nat) (x : R) : R := fold_right (fun k acc => lev x (D k) + acc) 0 ks.
Fixpoint hsum (i : nat) (l : list (list term)) (x : R) : R :=
  match l with [] => 0 | a :: r => lev x a * et i x + hsum (S i) r x end.

Lemma resid_val : forall n D ks l i b x,
  resid_ok n D ks i b l = true ->
  (match l with [] => lev x b = 0 | a :: _ => lev x b = lev x (Bs i a) end) ->
  (i = 0%nat -> lev x b = 0) ->
  y2sum i l x - (w + Dsum D ks x) * ysum i l x
  = (match i with O => 0 | S j => 2 * lev x b * et j x end) + hsum i (resid_highs n D ks i b l) x.
Proof.
  induction l as [|a l IH]; intros i b x Hok Hb H0; cbn [y2sum ysum resid_highs hsum].
  - rewrite Hb. destruct i; ring.
  - cbn [resid_ok] in Hok. cbv zeta in Hok. set (bn := match l with [] => [] | a' :: _ => Bs (S i) a' end) in *.
    apply andb_prop in Hok. destruct Hok as [Hok Hr]. apply andb_prop in Hok. destruct Hok as [HB Hz].
    specialize (IH (S i) bn x Hr).
    assert (match l with [] => lev x bn = 0 | a' :: _ => lev x bn = lev x (Bs (S i) a') end) as Hbn
      by (unfold bn; destruct l; reflexivity).
    specialize (IH Hbn (fun E => match Nat.neq_succ_0 _ E with end)). cbv iota in IH.
    apply (is_zero_val v h x) in Hz. unfold resid_low in Hz. rewrite leval_app in Hz.
    assert (lev x (resid_high n D ks i a b bn)
            = lev x (map td1 (map td1 a)) + 2 * lev x bn - 2 * (2 * INR i - 1) * lev x b - lev x a * Dsum D ks x) as Hh.
    { unfold resid_high. rewrite leval_app.
      pose proof (leval_low_high v h x n (resid_diff i a b bn)) as E1.
      pose proof (lowhighprod_val v h n D ks a x) as E2. fold (Dsum D ks x) in E2.
      unfold resid_diff in E1 at 1. rewrite !leval_app, !leval_tsc, mult_IZR, minus_IZR, mult_IZR, <- INR_IZR_INZ in E1. lra. }
    rewrite Hh.
    match goal with |- ?p + ?q - ?c * (?r + ?s) = _ => replace (p + q - c * (r + s)) with ((p - c * r) + (q - c * s)) by ring end.
    rewrite IH. pose proof (lB_val v h i a x HB) as EB. rewrite <- Hb in EB.
    pose proof (eta_rec i (w * (x * x))) as Ei.
    set (A := lev x a) in *. set (A1 := lev x (map td1 a)) in *. set (A2 := lev x (map td1 (map td1 a))) in *.
    set (B := lev x b) in *. set (BN := lev x bn) in *. set (DS := Dsum D ks x) in *.
    set (HS := hsum _ _ x).
    set (e0 := et i x) in *. set (e1 := et (S i) x) in *. set (e2 := et (S (S i)) x) in *.
    assert (A2 * e0 + 2 * (A1 * (w * x * e1)) + A * (w * e1 + w * x * (w * x * e2)) - (w + DS) * (A * e0)
            = A2 * e0 + 2 * w * e1 * (x ^ 2 * B) - DS * A * e0) as E.
    { rewrite <- EB. replace (A * (w * e1 + w * x * (w * x * e2))) with (A * w * (e1 + (w * (x * x) * e2))) by ring.
      replace (w * (x * x) * e2) with (e0 - (2 * INR i + 1) * e1) by lra. ring. }
    rewrite E. destruct i as [|j].
    + rewrite (H0 eq_refl). simpl (INR 0). ring.
    + pose proof (eta_rec j (w * (x * x))) as Ej. set (em := et j x) in *. fold e0 in Ej. fold e1 in Ej.
      replace (2 * w * e1 * (x ^ 2 * B)) with (2 * B * (w * (x * x) * e1)) by ring.
      replace (w * (x * x) * e1) with (em - (2 * INR j + 1) * e0) by lra. rewrite S_INR. ring.
Qed.

Lemma der_val : forall n l m i c x,
  der_ok n (S i) c l m = true ->
  (match l with [] => lev x c = 0 | a :: _ => lev x c = lev x (map tdiv1 a) end) ->
  y1sum (S i) l x - hsum (S i) m x = lev x c * et i x + hsum (S i) (der_highs n (S i) c l m) x.
Proof.
  induction l as [|a l IH]; intros m i c x Hok Hc; destruct m as [|d m]; cbn [der_ok] in Hok; try discriminate.
  - cbn [y1sum hsum der_highs]. rewrite Hc. ring.
  - cbn [y1sum hsum der_highs]. cbv zeta in Hok. set (cn := match l with [] => [] | a' :: _ => map tdiv1 a' end) in *.
    apply andb_prop in Hok. destruct Hok as [Hok Hr]. apply andb_prop in Hok. destruct Hok as [Hd Hz].
    cbn [Nat.eqb orb] in Hd.
    assert (match l with [] => lev x cn = 0 | a' :: _ => lev x cn = lev x (map tdiv1 a') end) as Hcn
      by (unfold cn; destruct l; reflexivity).
    specialize (IH m (S i) cn x Hr Hcn).
    apply (is_zero_val v h x) in Hz.
    pose proof (leval_low_high v h x n (der_diff (S i) a c cn d)) as E1. rewrite Hz in E1.
    unfold der_diff in E1 at 1. rewrite !leval_app, !leval_tsc, opp_IZR, minus_IZR, mult_IZR, <- INR_IZR_INZ in E1.
    pose proof (ldiv1_val v h a x Hd) as EA. rewrite <- Hc in EA.
    pose proof (eta_rec i (w * (x * x))) as Ei.
    match goal with |- ?p + ?q - (?r + ?s) = _ => replace (p + q - (r + s)) with ((p - r) + (q - s)) by ring end.
    rewrite IH, EA.
    replace (lev x (high n (der_diff (S i) a c cn d))) with
      (lev x (map td1 a) + (lev x cn + (- (2 * INR (S i) - 1) * lev x c + -1 * lev x d))) by lra.
    replace (x * lev x c * (w * x * et (S (S i)) x)) with (lev x c * (w * (x * x) * et (S (S i)) x)) by ring.
    replace (w * (x * x) * et (S (S i)) x) with (et i x - (2 * INR i + 1) * et (S i) x) by lra.
    rewrite S_INR. ring.
Qed.

(** with the first coefficient constant *)
Lemma der_val0 : forall n a l m x, der_ok n 0 [] (a :: l) m = true ->
  y1sum 0 (a :: l) x - hsum 0 m x
  = lev x a * (w * x * et 1 x) + hsum 0 (der_highs n 0 [] (a :: l) m) x.
Proof.
  intros n a l [|d m] x Hok; [discriminate|].
  cbn [der_ok] in Hok. cbv zeta in Hok. cbn [y1sum hsum der_highs]. set (cn := match l with [] => [] | a' :: _ => map tdiv1 a' end) in *.
  apply andb_prop in Hok. destruct Hok as [Hok Hr]. apply andb_prop in Hok. destruct Hok as [_ Hz].
  apply (is_zero_val v h x) in Hz.
  pose proof (leval_low_high v h x n (der_diff 0 a [] cn d)) as E1. rewrite Hz in E1.
  unfold der_diff in E1 at 1. rewrite !leval_app, !leval_tsc in E1. cbn [map] in E1.
  change (leval v h x []) with 0 in E1.
  assert (match l with [] => lev x cn = 0 | a' :: _ => lev x cn = lev x (map tdiv1 a') end) as Hcn
    by (unfold cn; destruct l; reflexivity).
  pose proof (der_val n l m 0 cn x Hr Hcn) as IH.
  match goal with |- ?p + ?q - (?r + ?s) = _ => replace (p + q - (r + s)) with ((p - r) + (q - s)) by ring end.
  rewrite IH.
  replace (lev x (high n (der_diff 0 a [] cn d))) with (lev x (map td1 a) + lev x cn - lev x d) by lra. ring.
Qed.
End Resid.

(** the leftover terms have the announced order *)
Lemma high_deg : forall n l t, In t (high n l) -> (n <= tdeg t)%nat.
Proof. intros n l t Ht. unfold high in Ht. apply filter_In in Ht. destruct Ht as [_ Ht]. destruct (Nat.ltb_spec (tdeg t) n); [discriminate|lia]. Qed.
Lemma tmulk_deg : forall s t, tdeg (tmulk s t) = (tdeg s + tdeg t)%nat.
Proof. intros [c a b l] [d a' b' m]. simpl. lia. Qed.
Lemma tsc_deg : forall k t, tdeg (tsc k t) = tdeg t.
Proof. intros k [c a b l]. reflexivity. Qed.
Lemma highprod_deg : forall n D ks a t, (forall k u, In k ks -> In u (D k) -> (k <= tdeg u)%nat) ->
  In t (highprod n D ks a) -> (n <= tdeg t)%nat.
Proof.
  intros n D ks a t HD Ht. unfold highprod in Ht. apply in_flat_map in Ht. destruct Ht as (k & Hk & Ht).
  apply in_map_iff in Ht. destruct Ht as (s & <- & Hs). rewrite tsc_deg. unfold lmul in Hs. apply in_flat_map in Hs.
  destruct Hs as (u & Hu & Hs). apply in_map_iff in Hs. destruct Hs as (r & <- & Hr). rewrite tmulk_deg.
  apply high_deg in Hu. specialize (HD k r Hk Hr). lia.
Qed.
Lemma resid_highs_deg : forall n D ks l i b, (forall k u, In k ks -> In u (D k) -> (k <= tdeg u)%nat) ->
  forall r t, In r (resid_highs n D ks i b l) -> In t r -> (n <= tdeg t)%nat.
Proof.
  induction l as [|a l IH]; intros i b HD r t Hr Ht; cbn [resid_highs] in Hr; [destruct Hr|].
  destruct Hr as [<-|Hr]; [|eapply IH; eauto]. unfold resid_high in Ht. apply in_app_or in Ht.
  destruct Ht as [Ht|Ht]; [eapply high_deg; eauto|eapply highprod_deg; eauto].
Qed.
Lemma der_highs_deg : forall n l m i c r t, In r (der_highs n i c l m) -> In t r -> (n <= tdeg t)%nat.
Proof.
  induction l as [|a l IH]; intros m i c r t Hr Ht; destruct m as [|d m]; cbn [der_highs] in Hr; try destruct Hr.
  - subst r. eapply high_deg; eauto.
  - eapply IH; eauto.
Qed.
Lemma resid_highs_length : forall n D ks l i b, List.length (resid_highs n D ks i b l) = List.length l.
Proof. induction l; intros; cbn [resid_highs List.length]; [reflexivity|rewrite IHl; reflexivity]. Qed.
Lemma hsum_rsum : forall v h w l i x,
  hsum v h w i l x = rsum (List.length l) (fun k => leval v h x (nth k l []) * eta (i + k) (w * (x * x))).
Proof.
  induction l as [|a l IH]; intros i x; [reflexivity|]. cbn [hsum List.length]. rewrite rsum_S, IH. cbn [nth].
  rewrite Nat.add_0_r. f_equal. apply rsum_ext. intros k Hk. f_equal. f_equal. lia.
Qed.
Lemma ysum_hsum : forall v h w l i x, ysum v h w i l x = hsum v h w i l x.
Proof. induction l; intros; cbn [ysum hsum]; [reflexivity|rewrite IHl; reflexivity]. Qed.
