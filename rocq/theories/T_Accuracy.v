(** C60 - C62: determinants and round trips, accuracy of whole propagations, matching errors against the exact
    problem, brackets around exact eigenvalues. *)
From Coq Require Import String Reals ZArith Lra Lia.
From Coquelicot Require Import Coquelicot.
From Coq Require Import List Bool.
From Verif Require Import Base S_Sectors S_Poly S_Legendre S_Formulas M_Sectors M_Poly M_Legendre M_Core S_Core M_Formulas S_Accuracy P_Lookup P_Poly P_Legendre P_Core P_Core2 P_Global P_Global2 P_Global3 P_Global4 P_Global5 T_Core T_Legendre.
Import ListNotations.
Open Scope R_scope.

(** ---- C60.  The code's own step matrices have determinant 1 up to the order of the method ... *)
Theorem C60_determinant : forall B W, 0 <= B -> 0 <= W -> exists K, 0 <= K /\
  forall (s : sec) E, (forall k, (1 <= k <= 15)%nat -> Rabs (nth k (spay s) 0) <= B) -> Rabs (v0 s - E) <= W -> 0 < sh s <= 1 ->
    (forall delta u, 0 <= delta <= sh s -> Rabs (det (calculateT eta_code s E delta u) - 1) <= K * (sh s ^ 15 + / 10 ^ 12)) /\
    (/ 10 ^ 12 < sh s -> forall u : bool, Rabs (det (calculateT eta_code s E (sh s) u) - 1) <= K * (sh s ^ (if u then 19 else 15) + / 10 ^ 20)).
Proof. exact determinant. Qed.
(** ... so that going from a to b and back returns the solution multiplied by a number k close to 1. *)
Theorem C60_round_trip : forall B W L, 0 <= B -> 0 <= W -> 0 <= L -> exists K, 0 <= K /\
  forall vm l lo hi E H a b (u : bool) Z pen, partition lo hi l -> hi - lo <= L -> H <= 1 ->
  (forall s, In s l -> directed s /\ / 10 ^ 12 < sh s <= H /\ (forall k, (1 <= k <= 15)%nat -> Rabs (nth k (spay s) 0) <= B) /\ Rabs (v0 s - E) <= W) ->
  lo <= a <= hi -> lo <= b <= hi ->
  (is_boundary a l /\ is_boundary b l /\ pen = 0) \/ pen = H ^ 15 + / 10 ^ 12 ->
  exists Z1 Z2 t1 t2 k, propagate (calculateT eta_code) vm l lo hi E Z a b u = Ret (Z1, t1) /\
    propagate (calculateT eta_code) vm l lo hi E Z1 b a u = Ret (Z2, t2) /\ y0 Z2 = k * y0 Z /\ y1 Z2 = k * y1 Z /\
    Rabs (k - 1) <= K * (H ^ (if u then 18 else 14) + INR (length l) / 10 ^ 20 + pen).
Proof. exact round_trip. Qed.

(** ---- C61.  Propagation over any number of sectors, from any a to any b in either direction, against every solution of
    y'' = (V - E) y: the error at b is bounded by the error at a plus the global order of the method plus the error tau
    with which the sectors represent V.  [pen] is 0 when a and b are sector boundaries. *)
Theorem C61_propagation : forall B W D L, 0 <= B -> 0 <= W -> 0 <= D -> 0 <= L -> exists K, 0 <= K /\
  forall vm l lo hi V E H tau y y' a b (u : bool) Z pen,
  partition lo hi l -> hi - lo <= L -> H <= 1 -> 0 <= tau <= D ->
  (forall s, In s l -> sector_ok V E B W H tau s) -> solution V E lo hi l y y' ->
  lo <= a <= hi -> lo <= b <= hi ->
  (is_boundary a l /\ is_boundary b l /\ pen = 0) \/ pen = H ^ 15 + / 10 ^ 12 ->
  exists Z' th, propagate (calculateT eta_code) vm l lo hi E Z a b u = Ret (Z', th) /\
    Rabs (y0 Z' - y b) + Rabs (y1 Z' - y' b) <=
      K * (Rabs (y0 Z - y a) + Rabs (y1 Z - y' a) +
           (Rabs (y a) + Rabs (y' a)) * (H ^ (if u then 18 else 14) + tau + INR (length l) / 10 ^ 20 + pen)).
Proof.
  intros B W D L HB HW HD HL. destruct (propagation_accuracy B W D L HB HW HD HL) as (K & HK & HP). exists K. split; [exact HK|].
  intros vm l lo hi V E H tau y y' a b u Z pen PT Hlen HH Htau Hok Hs Ha Hb Hpen.
  destruct (HP vm l lo hi V E H tau y y' a b u Z pen PT Hlen HH Htau Hok Hs Ha Hb Hpen) as (Z' & th & P1 & _ & P2). exists Z', th. split; [exact P1|exact P2].
Qed.

(** Sectors built by the constructor represent a potential that is a polynomial of degree at most 15 on the sector
    (coefficients c in the relative distance from the start of the sector) up to the accuracy of the tables. *)
Lemma rsum_map : forall f n, rsum n f = sumR (map f (seq 0 n)).
Proof.
  intros f. assert (forall l x, sumR (l ++ [x]) = sumR l + x) as A. { induction l as [|y l IH]; intro x; cbn; [unfold sumR; cbn; ring|]. change (y + sumR (l ++ [x]) = y + sumR l + x). rewrite IH. ring. }
  induction n as [|n IH]; [reflexivity|]. rewrite seq_S, map_app. cbn [map]. rewrite A. cbn [rsum]. rewrite IH. reflexivity.
Qed.
Lemma forward_represents : forall V c lo hi t, (length c <= 16)%nat -> lo < hi -> (forall x, V x = polyval c ((x - lo) / (hi - lo))) -> 0 <= t <= 1 ->
  Rabs (V (lo + t * (hi - lo)) - sector_potential 15 (fun k => nth k (sector_vs V lo hi Dfwd) 0) (hi - lo) (t * (hi - lo))) <= 16 * table_tol 16 * norm1 c.
Proof.
  intros V c lo hi t Hc Hlt HV Ht. pose proof (C11_reproduce 16 c lo hi t ltac:(lia) Hc ltac:(lra) Ht) as Rp. cbv zeta in Rp.
  rewrite C11_series in Rp by lia. unfold sector_potential. rewrite rsum_map.
  assert (getCoefficients 16 (fun x : R => polyval c ((x - lo) / (hi - lo))) lo hi = getCoefficients 16 V lo hi) as EV.
  { unfold getCoefficients. apply map_ext. intro i. f_equal. unfold integrate, leg_fs. f_equal. apply map_ext. intro x. symmetry. apply HV. }
  rewrite EV in Rp. rewrite HV, Rabs_minus_sym.
  assert (sumR (map (fun k => nth k (sector_vs V lo hi Dfwd) 0 * (hi - lo) ^ k * legendre_fun k (t * (hi - lo) / (hi - lo))) (seq 0 16))
     = sumR (map (fun i => (hi - lo) ^ i * nth i (getCoefficients 16 V lo hi) 0 * legendre_fun i t) (seq 0 16))) as ->.
  { f_equal. apply map_ext. intro k. unfold sector_vs. replace (t * (hi - lo) / (hi - lo)) with t by (field; lra). ring. }
  replace (INR 16) with 16 in Rp by (simpl; ring). exact Rp.
Qed.
Theorem C61_representation : forall V c lo hi d, (length c <= 16)%nat -> lo < hi -> d = Dfwd \/ d = Dbwd ->
  (forall x, V x = polyval c (match d with Dbwd => (hi - x) / (hi - lo) | _ => (x - lo) / (hi - lo) end)) ->
  forall x, lo < x < hi -> Rabs (V x - sector_pot (mkSector lo hi d (sector_vs V lo hi d)) x) <= 16 * table_tol 16 * norm1 c.
Proof.
  intros V c lo hi d Hc Hlt Hd HV x Hx. unfold sector_pot, sh. cbn [smin smax sdir spay]. destruct Hd as [-> | ->].
  - pose proof (forward_represents V c lo hi ((x - lo) / (hi - lo)) Hc Hlt HV) as Rp.
    assert (0 <= (x - lo) / (hi - lo) <= 1) as Ht. { split; [apply Rmult_le_pos; [lra|left; apply Rinv_0_lt_compat; lra]|]. apply (Rmult_le_reg_r (hi - lo)); [lra|]. field_simplify; lra. }
    specialize (Rp Ht). replace ((x - lo) / (hi - lo) * (hi - lo)) with (x - lo) in Rp by (field; lra). replace (lo + (x - lo)) with x in Rp by ring. exact Rp.
  - destruct (C24_stored_coefficients V lo hi Hlt) as [-> _].
    pose proof (forward_represents (fun x => V (- x)) c (- hi) (- lo) ((hi - x) / (hi - lo)) Hc ltac:(lra)) as Rp.
    assert (0 <= (hi - x) / (hi - lo) <= 1) as Ht. { split; [apply Rmult_le_pos; [lra|left; apply Rinv_0_lt_compat; lra]|]. apply (Rmult_le_reg_r (hi - lo)); [lra|]. field_simplify; lra. }
    assert (forall z, V (- z) = polyval c ((z - - hi) / (- lo - - hi))) as HV' by (intro z; rewrite HV; f_equal; f_equal; ring).
    specialize (Rp HV' Ht). replace (- lo - - hi) with (hi - lo) in Rp by ring.
    replace ((hi - x) / (hi - lo) * (hi - lo)) with (hi - x) in Rp by (field; lra). replace (- (- hi + (hi - x))) with x in Rp by ring. exact Rp.
Qed.

(** ---- C62.  The matching error of the code against the exact matching function (the Wronskian of the two exact solutions at
    the matching point) *)
Theorem C62_matching_error : forall B W D L, 0 <= B -> 0 <= W -> 0 <= D -> 0 <= L -> exists K, 0 <= K /\
  forall vm l m sm lo hi V E H tau (u : bool) left right yL yL' yR yR',
  partition lo hi l -> hi - lo <= L -> H <= 1 -> 0 <= tau <= D -> (forall s, In s l -> sector_ok V E B W H tau s) -> vget l m = Ret sm ->
  solution V E lo hi l yL yL' -> yL lo = y0 left -> yL' lo = y1 left ->
  solution V E lo hi l yR yR' -> yR hi = y0 right -> yR' hi = y1 right ->
  exists err derr dth, matchingError (calculateT eta_code) vm l m lo hi E left right u = Ret (err, derr, dth) /\
    Rabs (err - (yL' (smax sm) * yR (smax sm) - yR' (smax sm) * yL (smax sm)))
      <= K * (Rabs (y0 left) + Rabs (y1 left)) * (Rabs (y0 right) + Rabs (y1 right)) * (H ^ (if u then 18 else 14) + tau + INR (length l) / 10 ^ 20).
Proof. exact matching_accuracy. Qed.

(** at an eigenvalue of the exact problem the matching error is small *)
Theorem C62_small_at_eigenvalues : forall B W D L, 0 <= B -> 0 <= W -> 0 <= D -> 0 <= L -> exists K, 0 <= K /\
  forall vm l m sm lo hi V E H tau (u : bool) left right,
  partition lo hi l -> hi - lo <= L -> H <= 1 -> 0 <= tau <= D -> (forall s, In s l -> sector_ok V E B W H tau s) -> vget l m = Ret sm ->
  nonzero right -> eigenvalue V E lo hi l left right ->
  exists err derr dth, matchingError (calculateT eta_code) vm l m lo hi E left right u = Ret (err, derr, dth) /\
    Rabs err <= K * (Rabs (y0 left) + Rabs (y1 left)) * (Rabs (y0 right) + Rabs (y1 right)) * (H ^ (if u then 18 else 14) + tau + INR (length l) / 10 ^ 20).
Proof.
  intros B W D L HB HW HD HL. destruct (C62_matching_error B W D L HB HW HD HL) as (K & HK & HP). destruct (V_bounded B W D HB HW HD) as (M & HM & HV).
  exists K. split; [exact HK|].
  intros vm l m sm lo hi V E H tau u left right PT Hlen HH Htau Hok Hm Hnz (y & y' & S & Y0 & Y1 & Hn & Hpar). pose proof PT as [Hne Ch].
  assert (0 < / 10 ^ 12) as E12 by (apply Rinv_0_lt_compat, pow_lt; lra).
  assert (forall s, In s l -> smin s <= smax s) as Hle by (intros s Hs; destruct (Hok s Hs) as (_ & Q & _); unfold sh in Q; lra).
  destruct (chain_order l lo hi Ch Hle) as [Hlh CO].
  assert (forall (s : sec) x, In s l -> smin s < x < smax s -> Rabs (V x) <= M + Rabs E) as HVb.
  { intros s x Hs Hx. pose proof (HV V E H tau s x (Hok s Hs) HH Htau Hx). replace (V x) with ((V x - E) + E) by ring. eapply Rle_trans; [apply Rabs_triang|lra]. }
  assert (0 <= M + Rabs E) as HME by (pose proof (Rabs_pos E); lra).
  (* the same solution, scaled to end in [right] *)
  assert (y hi <> 0 \/ y' hi <> 0) as Hend.
  { destruct (Req_dec (y hi) 0) as [Z0|]; [|auto]. destruct (Req_dec (y' hi) 0) as [Z1|]; [|auto]. exfalso.
    destruct (solution_unique V l lo hi _ Ch Hle HVb HME E y y' y y' S S 0 hi ltac:(lra) ltac:(lra) ltac:(lra) lo ltac:(lra)) as [U1 U2]. lra. }
  assert (exists k, k * y hi = y0 right /\ k * y' hi = y1 right) as (k & K0 & K1).
  { destruct Hend as [He|He].
    - exists (y0 right / y hi). split; [field; exact He|]. apply (Rmult_eq_reg_r (y hi)); [|exact He]. field_simplify; [lra|exact He].
    - exists (y1 right / y' hi). split; [|field; exact He]. apply (Rmult_eq_reg_r (y' hi)); [|exact He]. field_simplify; [lra|exact He]. }
  assert (solution V E lo hi l (fun x => k * y x) (fun x => k * y' x)) as Sk.
  { destruct S as [S1 S2]. split.
    - intros x Hx. destruct (S1 x Hx). split; [apply (continuous_mult (fun _ => k) y)|apply (continuous_mult (fun _ => k) y')]; (apply continuous_const || assumption).
    - intros s x Hs Hx. destruct (S2 s x Hs Hx) as [D1 D2]. split; [apply (is_derive_scal y); exact D1|].
      evar_last; [apply (is_derive_scal y'); exact D2|]. unfold scal; simpl; unfold mult; simpl. ring. }
  destruct (HP vm l m sm lo hi V E H tau u left right y y' (fun x => k * y x) (fun x => k * y' x) PT Hlen HH Htau Hok Hm S Y0 Y1 Sk K0 K1) as (err & derr & dth & P1 & P2).
  exists err, derr, dth. split; [exact P1|]. cbv beta in P2.
  replace (y' (smax sm) * (k * y (smax sm)) - k * y' (smax sm) * y (smax sm)) with 0 in P2 by ring. rewrite Rminus_0_r in P2. exact P2.
Qed.

(** Two matching errors of opposite sign, each larger than its deviation delta from the exact matching function, enclose an
    eigenvalue of the exact problem: for every step matrix function. *)
Theorem C62_bracket : forall calcT vm l m sm lo hi V M p q left right u yL yL' yR yR' e1 d1 t1 e2 d2 t2 delta,
  partition lo hi l -> (forall s, In s l -> smin s <= smax s) -> vget l m = Ret sm ->
  (forall s x, In s l -> smin s < x < smax s -> Rabs (V x) <= M) -> p < q -> nonzero left ->
  (forall E, p <= E <= q -> solution V E lo hi l (yL E) (yL' E) /\ yL E lo = y0 left /\ yL' E lo = y1 left) ->
  (forall E, p <= E <= q -> solution V E lo hi l (yR E) (yR' E) /\ yR E hi = y0 right /\ yR' E hi = y1 right) ->
  matchingError calcT vm l m lo hi p left right u = Ret (e1, d1, t1) -> matchingError calcT vm l m lo hi q left right u = Ret (e2, d2, t2) ->
  let w E := yL' E (smax sm) * yR E (smax sm) - yR' E (smax sm) * yL E (smax sm) in
  Rabs (e1 - w p) <= delta -> Rabs (e2 - w q) <= delta ->
  (e1 < - delta /\ delta < e2) \/ (delta < e1 /\ e2 < - delta) ->
  exists E, p < E < q /\ eigenvalue V E lo hi l left right.
Proof.
  intros calcT vm l m sm lo hi V M p q left right u yL yL' yR yR' e1 d1 t1 e2 d2 t2 delta PT Hle Hm HV Hpq Hnz HL HR _ _ w A1 A2 Hs.
  pose proof PT as [_ Ch]. destruct (chain_order l lo hi Ch Hle) as [_ CO]. destruct (vget_ret _ _ _ Hm) as [_ Hn]. apply nth_error_In in Hn.
  destruct (CO sm Hn). pose proof (Hle sm Hn). pose proof (Rabs_pos M).
  apply (bracket_exact V l lo hi (Rabs M) Ch Hle) with (yL := yL) (yL' := yL') (yR := yR) (yR' := yR') (m := smax sm); auto; try lra.
  - intros s x Hs' Hx. eapply Rle_trans; [apply (HV s x Hs' Hx)|apply Rle_abs].
  - fold (w p) (w q). apply Rabs_le_between' in A1, A2. lra.
Qed.
(** the same for the step matrices of the code, with the deviation bounded by C62_matching_error *)
Theorem C62_bracket_code : forall B W D L, 0 <= B -> 0 <= W -> 0 <= D -> 0 <= L -> exists K, 0 <= K /\
  forall vm l m sm lo hi V H tau p q left right (u : bool) yL yL' yR yR' e1 d1 t1 e2 d2 t2,
  partition lo hi l -> hi - lo <= L -> H <= 1 -> 0 <= tau <= D -> vget l m = Ret sm ->
  (forall s, In s l -> sector_ok V p B W H tau s) -> (forall s, In s l -> sector_ok V q B W H tau s) -> p < q -> nonzero left ->
  (forall E, p <= E <= q -> solution V E lo hi l (yL E) (yL' E) /\ yL E lo = y0 left /\ yL' E lo = y1 left) ->
  (forall E, p <= E <= q -> solution V E lo hi l (yR E) (yR' E) /\ yR E hi = y0 right /\ yR' E hi = y1 right) ->
  matchingError (calculateT eta_code) vm l m lo hi p left right u = Ret (e1, d1, t1) ->
  matchingError (calculateT eta_code) vm l m lo hi q left right u = Ret (e2, d2, t2) ->
  let delta := K * (Rabs (y0 left) + Rabs (y1 left)) * (Rabs (y0 right) + Rabs (y1 right)) * (H ^ (if u then 18 else 14) + tau + INR (length l) / 10 ^ 20) in
  (e1 < - delta /\ delta < e2) \/ (delta < e1 /\ e2 < - delta) ->
  exists E, p < E < q /\ eigenvalue V E lo hi l left right.
Proof.
  intros B W D L HB HW HD HL. destruct (C62_matching_error B W D L HB HW HD HL) as (K & HK & HP). destruct (V_bounded B W D HB HW HD) as (M & HM & HV).
  exists K. split; [exact HK|].
  intros vm l m sm lo hi V H tau p q left right u yL yL' yR yR' e1 d1 t1 e2 d2 t2 PT Hlen HH Htau Hm Hokp Hokq Hpq Hnz HSL HSR M1 M2 delta Hs.
  assert (0 < / 10 ^ 12) as E12 by (apply Rinv_0_lt_compat, pow_lt; lra).
  assert (forall s, In s l -> smin s <= smax s) as Hle by (intros s Hs'; destruct (Hokp s Hs') as (_ & Q & _); unfold sh in Q; lra).
  destruct (HSL p ltac:(lra)) as (L1 & L2 & L3). destruct (HSR p ltac:(lra)) as (R1 & R2 & R3).
  destruct (HSL q ltac:(lra)) as (L1' & L2' & L3'). destruct (HSR q ltac:(lra)) as (R1' & R2' & R3').
  destruct (HP vm l m sm lo hi V p H tau u left right _ _ _ _ PT Hlen HH Htau Hokp Hm L1 L2 L3 R1 R2 R3) as (f1 & g1 & h1 & N1 & A1).
  destruct (HP vm l m sm lo hi V q H tau u left right _ _ _ _ PT Hlen HH Htau Hokq Hm L1' L2' L3' R1' R2' R3') as (f2 & g2 & h2 & N2 & A2).
  rewrite M1 in N1. injection N1 as <- <- <-. rewrite M2 in N2. injection N2 as <- <- <-.
  apply (C62_bracket (calculateT eta_code) vm l m sm lo hi V (M + Rabs p) p q left right u yL yL' yR yR' e1 d1 t1 e2 d2 t2 delta); auto.
  intros s x Hs' Hx. pose proof (HV V p H tau s x (Hokp s Hs') HH Htau Hx). replace (V x) with ((V x - p) + p) by ring. eapply Rle_trans; [apply Rabs_triang|lra].
Qed.

(** ---- Instances: the free particle on [0, 1], two sectors of length 1/2, one of each direction *)
Definition acc_l : list sec := [mkSector 0 (1/2) Dfwd [0]; mkSector (1/2) 1 Dbwd [0]].
Lemma acc_partition : partition 0 1 acc_l.
Proof. split; [discriminate|]. cbn. auto. Qed.
Lemma acc_zero : forall k, nth k [0] 0 = 0. Proof. intros [|[|k]]; reflexivity. Qed.
Lemma acc_pot : forall s x, In s acc_l -> sector_pot s x = 0.
Proof.
  intros s x Hs. assert (spay s = [0]) as Hp by (destruct Hs as [<-|[<-|[]]]; reflexivity). unfold sector_pot, sector_potential. rewrite Hp.
  generalize (S 15). intro n. generalize (match sdir s with Dbwd => smax s - x | _ => x - smin s end). intro d.
  induction n as [|n IH]; [reflexivity|]. cbn [rsum]. rewrite IH, acc_zero. generalize (legendre_fun n (d / sh s)). intro. ring.
Qed.
Lemma acc_ok : forall E W, Rabs E <= W -> forall s, In s acc_l -> sector_ok (fun _ => 0) E 0 W (1/2) 0 s.
Proof.
  intros E W HE s Hs. split; [destruct Hs as [<-|[<-|[]]]; unfold directed; auto|].
  assert (sh s = 1/2) as Hh by (destruct Hs as [<-|[<-|[]]]; unfold sh; cbn [smin smax]; lra). rewrite Hh.
  assert (/ 10 ^ 12 < 1/2) as H12. { apply (Rmult_lt_reg_r (10 ^ 12)); [apply pow_lt; lra|]. rewrite Rinv_l by (apply pow_nonzero; lra). assert (10 ^ 1 <= 10 ^ 12) by (apply Rle_pow; [lra|lia]). rewrite pow_1 in *. lra. }
  assert (spay s = [0]) as Hp by (destruct Hs as [<-|[<-|[]]]; reflexivity).
  split; [lra|]. split; [intros k _; rewrite Hp, acc_zero, Rabs_R0; lra|].
  split; [unfold v0; rewrite Hp; cbn [nth]; unfold Rminus; rewrite Rplus_0_l, Rabs_Ropp; exact HE|].
  intros x Hx. rewrite acc_pot by exact Hs. rewrite Rminus_eq_0, Rabs_R0. lra.
Qed.
(** y = sin (r x) / r with r = sqrt E, and its mirror image *)
Lemma free_solution : forall r c, 0 < r -> solution (fun _ => 0) (r * r) 0 1 acc_l (fun x => sin (r * (x - c)) / r) (fun x => cos (r * (x - c))).
Proof.
  intros r c Hr.
  assert (forall x, is_derive (fun x => sin (r * (x - c)) / r) x (cos (r * (x - c)))) as D1 by (intro x; auto_derive; [exact I|unfold Rminus; field; lra]).
  assert (forall x, is_derive (fun x => cos (r * (x - c))) x ((0 - r * r) * (sin (r * (x - c)) / r))) as D2 by (intro x; auto_derive; [exact I|unfold Rminus; field; lra]).
  split.
  - intros x _. split; [apply (ex_derive_continuous (fun x => sin (r * (x - c)) / r)); eexists; apply D1|apply (ex_derive_continuous (fun x => cos (r * (x - c)))); eexists; apply D2].
  - intros s x _ _. split; [apply D1|apply D2].
Qed.
Lemma acc_boundary : is_boundary 0 acc_l /\ is_boundary 1 acc_l.
Proof. split; [exists (mkSector 0 (1/2) Dfwd [0])|exists (mkSector (1/2) 1 Dbwd [0])]; (split; [cbn; auto|cbn; auto]). Qed.

Example C61_instance : exists K, 0 <= K /\ forall vm, exists Z' th,
  propagate (calculateT eta_code) vm acc_l 0 1 4 (mkY 0 1 0 0) 0 1 true = Ret (Z', th) /\
  Rabs (y0 Z' - sin 2 / 2) + Rabs (y1 Z' - cos 2) <= K * ((1/2) ^ 18 + 2 / 10 ^ 20).
Proof.
  destruct (C61_propagation 0 4 0 1 ltac:(lra) ltac:(lra) ltac:(lra) ltac:(lra)) as (K & HK & H). exists K. split; [exact HK|]. intro vm.
  pose proof (free_solution 2 0 ltac:(lra)) as S. replace (2 * 2) with 4 in S by ring.
  destruct (H vm acc_l 0 1 (fun _ => 0) 4 (1/2) 0 _ _ 0 1 true (mkY 0 1 0 0) 0 acc_partition ltac:(lra) ltac:(lra) ltac:(lra)
    (acc_ok 4 4 ltac:(rewrite Rabs_right; lra)) S ltac:(lra) ltac:(lra) ltac:(left; destruct acc_boundary; auto)) as (Z' & th & P1 & P2).
  exists Z', th. split; [exact P1|]. cbv beta in P2. cbn [y0 y1] in P2.
  replace (2 * (1 - 0)) with 2 in P2 by ring. replace (2 * (0 - 0)) with 0 in P2 by ring. rewrite sin_0, cos_0 in P2. replace (0 / 2) with 0 in P2 by field. rewrite !Rminus_eq_0, Rabs_R0, Rabs_R1 in P2.
  eapply Rle_trans; [exact P2|]. right. f_equal. cbn [length acc_l]. simpl (INR 2). lra.
Qed.

Example C60_instance : exists K, 0 <= K /\ forall vm, exists Z1 Z2 t1 t2 k,
  propagate (calculateT eta_code) vm acc_l 0 1 4 (mkY 3 1 0 0) 0 1 true = Ret (Z1, t1) /\
  propagate (calculateT eta_code) vm acc_l 0 1 4 Z1 1 0 true = Ret (Z2, t2) /\ y0 Z2 = k * 3 /\ y1 Z2 = k * 1 /\
  Rabs (k - 1) <= K * ((1/2) ^ 18 + INR 2 / 10 ^ 20 + 0).
Proof.
  destruct (C60_round_trip 0 4 1 ltac:(lra) ltac:(lra) ltac:(lra)) as (K & HK & H). exists K. split; [exact HK|]. intro vm.
  apply (H vm acc_l 0 1 4 (1/2) 0 1 true (mkY 3 1 0 0) 0 acc_partition); try lra.
  - intros s Hs. destruct (acc_ok 4 4 ltac:(rewrite Rabs_right; lra) s Hs) as (Q1 & Q2 & Q3 & Q4 & _). auto.
  - left. destruct acc_boundary. auto.
Qed.

(** exact step matrices of the free particle, E > 0: a bracket around the eigenvalue pi^2 *)
Definition free_T : sec -> R -> R -> bool -> Tm :=
  fun _ E d _ => mkT (cos (sqrt E * d)) (sin (sqrt E * d) / sqrt E) (- sqrt E * sin (sqrt E * d)) (cos (sqrt E * d)) 0 0 0 0.
Definition one_l : list sec := [mkSector 0 1 Dfwd [0]].
Example C62_instance : forall vm : R, exists E, 1 < E < 25 /\ eigenvalue (fun _ => 0) E 0 1 one_l (mkY 0 1 0 0) (mkY 0 1 0 0).
Proof.
  intro vm.
  assert (partition 0 1 one_l) as PT by (split; [discriminate|cbn; auto]).
  assert (forall s, In s one_l -> smin s <= smax s) as Hle by (intros s [<-|[]]; cbn; lra).
  destruct (matchingError_val free_T vm one_l 0 0 1 1 (mkY 0 1 0 0) (mkY 0 1 0 0) true _ PT Hle eq_refl) as (tl & tr & _ & _ & ME1).
  destruct (matchingError_val free_T vm one_l 0 0 1 25 (mkY 0 1 0 0) (mkY 0 1 0 0) true _ PT Hle eq_refl) as (tl2 & tr2 & _ & _ & ME2).
  cbv zeta in ME1, ME2.
  assert (forall E, 0 < E -> runY free_T vm one_l E 0 1 true (mkY 0 1 0 0) = mkY (sin (sqrt E) / sqrt E) (cos (sqrt E)) 0 0) as RL.
  { intros E HE. unfold runY, one_l. cbn [fold_left]. rewrite yprop_shape.
    - unfold rv, dl, cl; cbn [sdir smin smax]. assert (Rmax 0 (Rmin 1 1) = 1) as -> by (unfold Rmax, Rmin; repeat destruct (Rle_dec _ _); lra).
      assert (Rmax 0 (Rmin 0 1) = 0) as -> by (unfold Rmax, Rmin; repeat destruct (Rle_dec _ _); lra).
      unfold free_T, tmul, tdiv; cbn [y0 y1 e0 e1 t00 t01 t10 t11 d00 d01 d10 d11]. replace (1 - 0) with 1 by ring. replace (0 - 0) with 0 by ring.
      rewrite !Rmult_0_r, !Rmult_1_r, sin_0, cos_0. assert (sqrt E <> 0) by (pose proof (sqrt_lt_R0 E HE); lra). apply Y_eq; unfold tmul; cbn [y0 y1 e0 e1 t00 t01 t10 t11 d00 d01 d10 d11]; field; assumption.
    - intros s0 E0 u0. unfold free_T, Tid. rewrite !Rmult_0_r, sin_0, cos_0. unfold Rdiv. rewrite Rmult_0_l, Rmult_0_r. reflexivity.
    - left; reflexivity.
    - cbn; lra.
    - cbn. lra. }
  assert (forall E, 0 < E -> runY free_T vm (if Rleb 1 (smax (mkSector 0 1 Dfwd [0])) then one_l else rev one_l) E 1 (smax (mkSector 0 1 Dfwd [0])) true (mkY 0 1 0 0) = mkY 0 1 0 0) as RR.
  { intros E HE. cbn [smax]. replace (if Rleb 1 1 then one_l else rev one_l) with one_l by (destruct (Rleb 1 1); reflexivity).
    unfold runY, one_l. cbn [fold_left]. unfold yprop. rewrite yprop_noop; [reflexivity|]. left. cbn. lra. }
  change (smax (mkSector 0 1 Dfwd [0])) with 1 in *.
  rewrite RL, RR in ME1 by lra. rewrite RL, RR in ME2 by lra. cbn [y0 y1 e0 e1] in ME1, ME2.
  assert (sqrt 1 = 1) as S1 by apply sqrt_1. assert (sqrt 25 = 5) as S4 by (replace 25 with (5 * 5) by ring; apply sqrt_square; lra).
  rewrite S1 in ME1. rewrite S4 in ME2.
  assert (forall E c, 0 < E -> solution (fun _ => 0) E 0 1 one_l (fun x => sin (sqrt E * (x - c)) / sqrt E) (fun x => cos (sqrt E * (x - c)))) as FS.
  { intros E c HE. pose proof (free_solution (sqrt E) c (sqrt_lt_R0 E HE)) as Q. rewrite sqrt_sqrt in Q by lra. destruct Q as [Q1 Q2]. split; [exact Q1|].
    intros s x _ _. assert (0 < sqrt E) by (apply sqrt_lt_R0; lra). assert (sqrt E * sqrt E = E) by (apply sqrt_sqrt; lra). split; (auto_derive; [exact I|]).
    - unfold Rminus; field. lra.
    - transitivity ((0 - sqrt E * sqrt E) * (sin (sqrt E * (x - c)) / sqrt E)); [unfold Rminus; field; lra|rewrite H0; reflexivity]. }
  assert (0 < sin 1) as P1 by (apply sin_gt_0; [lra|pose proof PI_RGT_0; pose proof PI2_3_2; lra]).
  assert (sin 5 < 0) as P4.
  { pose proof PI_4. pose proof PI2_3_2. apply sin_lt_0; lra. }
  refine (C62_bracket free_T vm one_l 0 _ 0 1 (fun _ => 0) 0 1 25 (mkY 0 1 0 0) (mkY 0 1 0 0) true
    (fun E x => sin (sqrt E * (x - 0)) / sqrt E) (fun E x => cos (sqrt E * (x - 0))) (fun E x => sin (sqrt E * (x - 1)) / sqrt E) (fun E x => cos (sqrt E * (x - 1)))
    _ _ _ _ _ _ 0 PT Hle eq_refl _ _ _ _ _ ME1 ME2 _ _ _).
  - intros s x _ _. rewrite Rabs_R0. lra.
  - lra.
  - right. cbn. lra.
  - intros E HE. split; [apply FS; lra|]. cbn [y0 y1]. replace (sqrt E * (0 - 0)) with 0 by ring. rewrite sin_0, cos_0. split; [unfold Rdiv; ring|reflexivity].
  - intros E HE. split; [apply FS; lra|]. cbn [y0 y1]. replace (sqrt E * (1 - 1)) with 0 by ring. rewrite sin_0, cos_0. split; [unfold Rdiv; ring|reflexivity].
  - cbn [smax]. rewrite S1. replace (1 * (1 - 0)) with 1 by ring. replace (1 * (1 - 1)) with 0 by ring. rewrite sin_0, cos_0.
    match goal with |- Rabs ?x <= 0 => replace x with 0 by field end. rewrite Rabs_R0. lra.
  - cbn [smax]. rewrite S4. replace (5 * (1 - 0)) with 5 by ring. replace (5 * (1 - 1)) with 0 by ring. rewrite sin_0, cos_0.
    match goal with |- Rabs ?x <= 0 => replace x with 0 by field end. rewrite Rabs_R0. lra.
  - left. lra.
Qed.

Print Assumptions C60_determinant.
Print Assumptions C60_round_trip.
Print Assumptions C61_propagation.
Print Assumptions C61_representation.
Print Assumptions C62_matching_error.
Print Assumptions C62_small_at_eigenvalues.
Print Assumptions C62_bracket.
Print Assumptions C62_bracket_code.
