(** C79: what the construction of the Liouville transformation guarantees about its pieces. *)
From Coq Require Import String ZArith QArith Qreals Reals.
From Coquelicot Require Import Coquelicot.
From Coq Require Import List Bool Lia Lra.
From Verif Require Import Base M_LegendreData M_Sectors M_Legendre M_Poly S_Poly P_Poly P_Eval T_Poly S_Legendre P_Legendre T_Legendre M_Core M_Liouville P_Liouville T_Liouville.
Import ListNotations.
Open Scope R_scope.

(** |a - b| < tol * max(1, |a|) *)
Definition close (tol a b : R) : Prop := Rabs (a - b) < tol * Rmax 1 (Rabs a).
(** [q] is the piece constructed for [a, b], moved along the x-axis *)
Definition piece_of (p w : R -> R) (a b : R) (q : piece) : Prop :=
  let q0 := make_piece p w a b in
  r_min q = a /\ r_max q = b /\ pp q = pp q0 /\ pw q = pw q0 /\ ppwx q = ppwx q0 /\ x_max q - x_min q = x_max q0 - x_min q0 /\
  pr2x q <> [] /\ (forall t, peval (pr2x q) t - x_min q = peval (pr2x q0) t - x_min q0).
(** the four quantities that are compared, for a piece *)
Definition area_r2x (q : piece) : R := RInt (peval (pr2x q)) 0 1 * (r_max q - r_min q).
Definition gauss_x2r (q : piece) : R := integrate true 12 (piece_x2r q) 0 1 0 * (x_max q - x_min q).
Definition area_pwx (q : piece) : R := RInt (peval (ppwx q)) 0 1 * (x_max q - x_min q).
Definition jump_pwx (q : piece) : R := peval (ppwx q) 1 - peval (ppwx q) 0.
(** [left] and [right] are the two halves of [whole], and agree with it *)
Definition accepted_pair (p w : R -> R) (left right : piece) : Prop :=
  exists whole, piece_of p w (r_min left) (r_max right) whole /\
    piece_of p w (r_min left) ((r_min left + r_max right) / 2) left /\
    piece_of p w ((r_min left + r_max right) / 2) (r_max right) right /\
    x_min left = x_min whole /\ x_min right = x_max left /\
    (x_max whole - x_min whole < 1 / 10 ^ 8 \/
     (close (1 / 10 ^ 14) (x_max right) (x_max whole) /\
      close (1 / 10 ^ 14) (area_r2x left + area_r2x right) (area_r2x whole) /\
      close (1 / 10 ^ 14) (gauss_x2r left + gauss_x2r right) (gauss_x2r whole) /\
      close (1 / 10 ^ 14) (area_pwx left + area_pwx right) (area_pwx whole) /\
      close (1 / 10 ^ 12) (jump_pwx left + jump_pwx right) (jump_pwx whole))).

Lemma relError_close a b tol : Rltb (relError a b) tol = true -> close tol a b.
Proof.
  intro H. apply Rltb_true in H. unfold relError in H. unfold close.
  destruct (Rltb 1 a) eqn:Q1; [|destruct (Rltb a (-1)) eqn:Q2]; cbn [orb] in H.
  - apply Rltb_true in Q1. rewrite Rabs_div in H by lra. assert (Rabs a = a) as Ea by (apply Rabs_pos_eq; lra). rewrite Ea in *. rewrite Rmax_right by lra. apply (Rmult_lt_compat_r a) in H; [|lra]. replace (Rabs (a - b) / a * a) with (Rabs (a - b)) in H by (field; lra). exact H.
  - apply Rltb_true in Q2. rewrite Rabs_div in H by lra. assert (Rabs a = - a) as Ea by (apply Rabs_left; lra). rewrite Ea in *.
    rewrite Rmax_right by lra. apply (Rmult_lt_compat_r (- a)) in H; [|lra]. replace (Rabs (a - b) / - a * - a) with (Rabs (a - b)) in H by (field; lra). exact H.
  - apply Rltb_false in Q1, Q2. rewrite Rmax_left; [rewrite Rmult_1_r; exact H|]. apply Rabs_le. lra.
Qed.

Lemma piece_of_make p w a b : piece_of p w a b (make_piece p w a b).
Proof. unfold piece_of. repeat split. discriminate. Qed.
Lemma piece_of_set p w a b q x : piece_of p w a b q -> piece_of p w a b (setXMin q x).
Proof.
  intros (A1 & A2 & A3 & A4 & A5 & A6 & A7 & A8). pose proof (setXMin_shift q x A7) as Sh. pose proof (setXMin_width q x) as Wd. pose proof (setXMin_xmin q x) as Xm.
  destruct (setXMin_r q x) as [R1 R2]. unfold piece_of. rewrite R1, R2, Wd.
  assert (pp (setXMin q x) = pp q /\ pw (setXMin q x) = pw q /\ ppwx (setXMin q x) = ppwx q /\ pr2x (setXMin q x) <> []) as (E1 & E2 & E3 & E4).
  { unfold setXMin. destruct (Reqb x (x_min q)); cbn; auto using padds_ne. }
  rewrite E1, E2, E3. repeat (split; [assumption|]). intro t. rewrite Sh, Xm. rewrite <- (A8 t). ring.
Qed.
Lemma pint_RInt1 (q : poly) : q <> [] -> pint_at q 1 = RInt (peval q) 0 1.
Proof. intro N. symmetry. apply is_RInt_unique. apply C10_integral, N. Qed.
Lemma ppwx_ne p w a b q : piece_of p w a b q -> ppwx q <> [].
Proof. intros (_ & _ & _ & _ & -> & _). unfold make_piece. cbv zeta. cbn [ppwx]. unfold asPolynomial. discriminate. Qed.

Lemma accept_spec p w a b c next left right : piece_of p w a c next -> piece_of p w a b left -> piece_of p w b c right ->
  accept next left right = true ->
  x_max next - x_min next < 1 / 10 ^ 8 \/
  (close (1 / 10 ^ 14) (x_max right) (x_max next) /\ close (1 / 10 ^ 14) (area_r2x left + area_r2x right) (area_r2x next) /\
   close (1 / 10 ^ 14) (gauss_x2r left + gauss_x2r right) (gauss_x2r next) /\
   close (1 / 10 ^ 14) (area_pwx left + area_pwx right) (area_pwx next) /\ close (1 / 10 ^ 12) (jump_pwx left + jump_pwx right) (jump_pwx next)).
Proof.
  intros Pn Pl Pr H. unfold accept in H. apply orb_prop in H as [H|H]; [left; apply Rltb_true; exact H|]. right.
  repeat apply andb_prop in H as [H ?].
  repeat match goal with K : Rltb _ _ = true |- _ => apply relError_close in K end.
  assert (pr2x next <> [] /\ pr2x left <> [] /\ pr2x right <> []) as (N1 & N2 & N3) by (split; [apply Pn|split; [apply Pl|apply Pr]]).
  pose proof (ppwx_ne _ _ _ _ _ Pn). pose proof (ppwx_ne _ _ _ _ _ Pl). pose proof (ppwx_ne _ _ _ _ _ Pr).
  unfold area_r2x, area_pwx. rewrite <- !pint_RInt1 by assumption. auto.
Qed.

Lemma loop_pairs p w : forall fuel toDo xm pieces l,
  construct_loop fuel p w toDo xm pieces = Ret l ->
  (forall q, In q toDo -> piece_of p w (r_min q) (r_max q) q) ->
  exists tail : list (piece * piece), l = pieces ++ flat_map (fun c => [fst c; snd c]) tail /\ forall c, In c tail -> accepted_pair p w (fst c) (snd c).
Proof.
  induction fuel as [|k IH]; intros toDo xm pieces l H Ht; [discriminate|]. cbn [construct_loop] in H. destruct toDo as [|next0 rest].
  - injection H as <-. exists []. split; [cbn; rewrite app_nil_r; reflexivity|intros c []].
  - cbv zeta in H. set (next := setXMin next0 xm) in *.
    assert (piece_of p w (r_min next) (r_max next) next) as Pn.
    { destruct (setXMin_r next0 xm) as [R1 R2]. unfold next. rewrite R1, R2. apply piece_of_set, Ht. left; reflexivity. }
    set (rMid := (r_min next + r_max next) / 2) in *.
    set (left := setXMin (make_piece p w (r_min next) rMid) xm) in *.
    set (right := setXMin (make_piece p w rMid (r_max next)) (x_max left)) in *.
    assert (piece_of p w (r_min next) rMid left) as Pl by apply piece_of_set, piece_of_make.
    assert (piece_of p w rMid (r_max next) right) as Pr by apply piece_of_set, piece_of_make.
    destruct (accept next left right) eqn:Ac.
    + apply IH in H; [|intros q Hq; apply Ht; right; exact Hq]. destruct H as (tail & E & F). exists ((left, right) :: tail).
      split; [rewrite E, <- app_assoc; reflexivity|]. intros c [<-|Hc]; [|apply F, Hc]. cbn [fst snd].
      pose proof Pl as (L1 & L2 & _). pose proof Pr as (R1 & R2 & _). exists next. rewrite L1, R2. fold rMid.
      split; [exact Pn|]. split; [exact Pl|]. split; [exact Pr|].
      split; [unfold left, next; rewrite !setXMin_xmin; reflexivity|]. split; [apply setXMin_xmin|].
      eapply accept_spec; eauto.
    + apply IH in H; [exact H|]. intros q [<-|[<-|Hq]]; [| |apply Ht; right; exact Hq].
      * pose proof Pl as (L1 & L2 & _). rewrite L1, L2. exact Pl.
      * pose proof Pr as (R1 & R2 & _). rewrite R1, R2. exact Pr.
Qed.

(** ---- C79.  The pieces come in pairs, and each pair agrees with the single piece it replaces *)
Theorem C79_pairs fuel p w rmin rmax l : constructPiecewise fuel p w rmin rmax = Ret l ->
  exists n, length l = (2 * n)%nat /\
    forall k left right, nth_error l (2 * k) = Some left -> nth_error l (2 * k + 1) = Some right -> accepted_pair p w left right.
Proof.
  intro H. apply loop_pairs in H.
  2:{ intros q [<-|[]]. apply piece_of_make. }
  destruct H as (tail & -> & F). cbn [app]. exists (length tail). split.
  - clear F. induction tail as [|c t IH]; [reflexivity|]. cbn [flat_map app length]. rewrite IH. lia.
  - induction tail as [|c t IH]; intros k left right Hl Hr; [destruct k; discriminate|].
    destruct k as [|k].
    + cbn in Hl, Hr. injection Hl as <-. injection Hr as <-. apply F. left; reflexivity.
    + apply (IH (fun c Hc => F c (or_intror Hc)) k).
      * replace (2 * S k)%nat with (S (S (2 * k))) in Hl by lia. exact Hl.
      * replace (2 * S k + 1)%nat with (S (S (2 * k + 1))) in Hr by lia. exact Hr.
Qed.
(** conversely, a piece that passes the test is not divided further: the construction for it is the pair of its halves *)
Theorem C79_accepts fuel p w rmin rmax :
  let whole := make_piece p w rmin rmax in let rMid := (rmin + rmax) / 2 in
  let left := make_piece p w rmin rMid in let right := setXMin (make_piece p w rMid rmax) (x_max left) in
  (x_max whole < 1 / 10 ^ 8 \/
   (Rabs (x_max right - x_max whole) < 1 / 10 ^ 14 /\
    Rabs (area_r2x left + area_r2x right - area_r2x whole) < 1 / 10 ^ 14 /\
    Rabs (gauss_x2r left + gauss_x2r right - gauss_x2r whole) < 1 / 10 ^ 14 /\
    Rabs (area_pwx left + area_pwx right - area_pwx whole) < 1 / 10 ^ 14 /\
    Rabs (jump_pwx left + jump_pwx right - jump_pwx whole) < 1 / 10 ^ 12)) ->
  (2 <= fuel)%nat -> constructPiecewise fuel p w rmin rmax = Ret [left; right].
Proof.
  intros whole rMid left right H Hf. unfold constructPiecewise. destruct fuel as [|[|f]]; try lia.
  assert (x_min whole = 0) as X0 by reflexivity. assert (setXMin whole 0 = whole) as Sw.
  { unfold setXMin. rewrite X0. rewrite (proj2 (Reqb_true 0 0) eq_refl). reflexivity. }
  assert (setXMin left 0 = left) as Sl.
  { unfold setXMin. change (x_min left) with 0. rewrite (proj2 (Reqb_true 0 0) eq_refl). reflexivity. }
  cbn [construct_loop]. cbv zeta. fold whole. rewrite Sw. change (r_min whole) with rmin. change (r_max whole) with rmax. fold rMid. fold left. rewrite Sl. fold right.
  assert (accept whole left right = true) as ->; [|reflexivity].
  assert (forall a b tol, Rabs (a - b) < tol -> Rltb (relError a b) tol = true) as Rel.
  { intros a b tol K. apply Rltb_true. unfold relError. destruct (Rltb 1 a) eqn:Q1; [|destruct (Rltb a (-1)) eqn:Q2]; cbn [orb].
    - apply Rltb_true in Q1. rewrite Rabs_div by lra. rewrite (Rabs_pos_eq a) by lra. eapply Rle_lt_trans; [|exact K].
      rewrite <- (Rmult_1_r (Rabs (a - b))) at 2. apply Rmult_le_compat_l; [apply Rabs_pos|]. rewrite <- Rinv_1. apply Rinv_le_contravar; lra.
    - apply Rltb_true in Q2. rewrite Rabs_div by lra. rewrite (Rabs_left a) by lra. eapply Rle_lt_trans; [|exact K].
      rewrite <- (Rmult_1_r (Rabs (a - b))) at 2. apply Rmult_le_compat_l; [apply Rabs_pos|]. rewrite <- Rinv_1. apply Rinv_le_contravar; lra.
    - exact K. }
  unfold accept. destruct H as [H|(H1 & H2 & H3 & H4 & H5)].
  - rewrite X0, Rminus_0_r. rewrite (proj2 (Rltb_true _ _) H). reflexivity.
  - assert (piece_of p w rMid rmax right) as Pr by apply piece_of_set, piece_of_make.
    unfold area_r2x in H2. unfold area_pwx in H4.
    rewrite <- !pint_RInt1 in H2 by (discriminate || apply Pr). rewrite <- !pint_RInt1 in H4 by (discriminate || (eapply ppwx_ne; exact Pr)).
    unfold gauss_x2r in H3. unfold jump_pwx in H5. unfold pieceError. rewrite (Rel _ _ _ H1), (Rel _ _ _ H2), (Rel _ _ _ H3), (Rel _ _ _ H4), (Rel _ _ _ H5). apply orb_true_r.
Qed.
Lemma is_RInt_lin (f : R -> R) a b l : a <> b -> is_RInt f 0 1 l -> is_RInt (fun x => f ((x - a) / (b - a))) a b ((b - a) * l).
Proof.
  intros N H. pose proof (is_RInt_comp_lin f (/ (b - a)) (- a / (b - a)) a b l) as K.
  replace (/ (b - a) * a + - a / (b - a)) with 0 in K by (field; lra).
  replace (/ (b - a) * b + - a / (b - a)) with 1 in K by (field; lra).
  specialize (K H). apply (is_RInt_scal _ a b (b - a)) in K.
  eapply is_RInt_ext; [|exact K]. intros x _. cbv beta.
  change (@eq R ((b - a) * (/ (b - a) * f (/ (b - a) * x + - a / (b - a)))) (f ((x - a) / (b - a)))).
  replace (/ (b - a) * x + - a / (b - a)) with ((x - a) / (b - a)) by (field; lra). field. lra.
Qed.
(** the quadrature used in the third test: Legendre::integrate() gives HALF of the integral of a polynomial of degree < n,
    up to the rounding of the table (the weights sum to 1, the scaling is by half the length) *)
Theorem C79_quadrature n c a b : (1 <= n <= 18)%nat -> (length c <= n)%nat -> a <> b ->
  let f := fun x => polyval c ((x - a) / (b - a)) in
  Rabs (integrate true n f a b 0 - / 2 * RInt f a b) <= Rabs (b - a) / 2 * (table_tol n * norm1 c).
Proof.
  intros Hn Hc N f.
  assert (integrate true n f a b 0 = (b - a) / 2 * nth 0 (getCoefficients n f a b) 0) as ->.
  { rewrite nth_coeffs by lia. unfold integrate. change (leg_pow (leg_h a b) 0) with 1. change (@smul R _) with Rmult.
    change (leg_h a b) with ((b - a) / 2). cbn [pow]. field. }
  pose proof (C11_coefficients n c a b 0 Hn ltac:(lia) Hc N) as K. cbv zeta in K. fold f in K. cbn [pow] in K. rewrite Rmult_1_l in K.
  assert (RInt f a b = (b - a) * projection 0 (polyval c)) as ->.
  { apply is_RInt_unique. unfold f. apply is_RInt_lin; [exact N|]. unfold projection. change (INR (2 * 0 + 1)) with 1. rewrite Rmult_1_l.
    assert (forall t, legendre_fun 0 t = 1) as L0 by (intro t; unfold legendre_fun, polyval; cbn; unfold Q2R; cbn; lra).
    apply (is_RInt_ext (fun t => polyval c t * legendre_fun 0 t)); [intros t _; rewrite L0; apply Rmult_1_r|]. apply (RInt_correct (V := R_CompleteNormedModule)).
    apply (ex_RInt_ext (polyval c)); [intros t _; rewrite L0; symmetry; apply Rmult_1_r|]. eexists. apply (is_RInt_ext (fun t => t ^ 0 * polyval c t)); [intros t _; cbn [pow]; apply Rmult_1_l|]. apply mint_RInt. }
  replace ((b - a) / 2 * nth 0 (getCoefficients n f a b) 0 - / 2 * ((b - a) * projection 0 (polyval c)))
    with ((b - a) / 2 * (nth 0 (getCoefficients n f a b) 0 - projection 0 (polyval c))) by field.
  rewrite Rabs_mult. unfold Rdiv at 1. rewrite Rabs_mult, (Rabs_pos_eq (/ 2)) by lra. apply Rmult_le_compat_l; [|exact K].
  pose proof (Rabs_pos (b - a)). lra.
Qed.

(** C47, converse: whatever the list, a lookup that returns a piece returns one of the list that contains the value; outside
    the domain of a constructed transformation r2x and x2r return nothing (the assert fails) *)
Theorem C47_contained {A} (fmin fmax : A -> R) (l : list A) v q : findPiece fmin fmax l v = Ret q -> In q l /\ fmin q <= v <= fmax q.
Proof.
  unfold findPiece. cbv zeta. intro H.
  match type of H with bind ?m _ = _ => destruct m as [a| | |] eqn:G end; cbn [bind] in H; try discriminate.
  apply vget_ret in G.
  destruct (Rleb (fmin a) v && Rleb v (fmax a)) eqn:K; [|discriminate]. injection H as <-.
  apply andb_prop in K as [K1 K2]. apply Rleb_true in K1, K2. split; [|split; assumption].
  destruct G as [_ G]. eapply nth_error_In; exact G.
Qed.
Theorem C47_outside fuel p w rmin rmax l r : constructPiecewise fuel p w rmin rmax = Ret l -> rmin < rmax ->
  ~ (rmin <= r <= rmax) -> forall v, r2x l r <> Ret v.
Proof.
  intros H G O v K. unfold r2x in K. destruct (find_r l r) as [q| | |] eqn:Q; cbn [bind] in K; try discriminate.
  destruct (C47_contained _ _ _ _ _ Q) as [I C]. destruct (C46_pieces _ _ _ _ _ _ H) as (xM & N & T1 & T2 & D & W).
  apply O. destruct (tiles_le _ _ l rmin rmax T1) as [_ B]; [intros q' I'; apply Rlt_le, W; assumption|].
  destruct (B q I) as [B1 B2]. lra.
Qed.

(** Non-vacuity: constant p = 2, w = 3 on [-1, 4] *)
Example C79_instance : exists fuel l, constructPiecewise fuel (fun _ => 2) (fun _ => 3) (-1) 4 = Ret l /\
  exists left right, nth_error l 0 = Some left /\ nth_error l 1 = Some right /\ accepted_pair (fun _ => 2) (fun _ => 3) left right.
Proof.
  destruct C47_instance as (fuel & l & H & _). exists fuel, l. split; [exact H|].
  destruct (C79_pairs _ _ _ _ _ _ H) as (n & L & F). destruct (C46_pieces _ _ _ _ _ _ H) as (xm & N & _).
  destruct l as [|a [|b l]]; [congruence|cbn in L; lia|]. exists a, b. split; [reflexivity|]. split; [reflexivity|]. apply (F 0%nat); reflexivity.
Qed.
Example C79_quadrature_half : Rabs (integrate true 12 (fun x => polyval [1] ((x - 0) / (1 - 0))) 0 1 0 - / 2) <= 17 / 10 ^ 18.
Proof.
  pose proof (C79_quadrature 12 [1] 0 1 ltac:(lia) ltac:(cbn; lia) ltac:(lra)) as K. cbv zeta in K.
  assert (RInt (fun x => polyval [1] ((x - 0) / (1 - 0))) 0 1 = 1) as E.
  { rewrite (RInt_ext _ (fun _ => 1)); [rewrite RInt_const; unfold scal; cbn; unfold mult; cbn; ring|]. intros x _. unfold polyval. cbn. ring. }
  rewrite E, Rmult_1_r, Rminus_0_r, Rabs_R1 in K. unfold table_tol, norm1 in K. cbn [Nat.leb map sumR fold_right] in K. rewrite Rabs_R1 in K.
  eapply Rle_trans; [exact K|]. assert (0 < 10 ^ 18) by (apply pow_lt; lra). assert (0 < 17 / 10 ^ 18) by (apply Rdiv_lt_0_compat; lra). lra.
Qed.

Print Assumptions C79_pairs.
Print Assumptions C79_accepts.
Print Assumptions C79_quadrature.
Print Assumptions C47_contained.
Print Assumptions C47_outside.
